(** What a connection makes of the answer to its question for the packet limit. *)
From Coq Require Import String ZArith List Bool Lia.
From Verif Require Import Base BaseFacts Types Utf8 ParseBuf BufMut Spec_Wire ParseBuf_proofs Framing Framing_proofs
  Spec_Conv Packets Spec_Packets Packets_proofs Crypt Handshake ValueBin Spec_Stmt Spec_Text StmtPackets ValueText Rows Rows_proofs
  ValueText_proofs Conversion Auth Auth_proofs Conn Spec_Conn Conn_proofs Panic_proofs Connect_proofs Spec_Limit.
Import ListNotations.
Open Scope Z_scope.
Open Scope io_scope.

Lemma find_column_cases : forall name cols,
  match find_column name cols with
  | None => ~ In name (map col_name cols)
  | Some i => exists before col after, cols = before ++ col :: after /\ length before = i /\
      ~ In name (map col_name before) /\ col_name col = name
  end.
Proof.
  intros name. induction cols as [|c r IH]; cbn [find_column map]; [intros []|].
  destruct (list_eqb (col_name c) name) eqn:E.
  - apply list_eqb_eq in E. exists [], c, r. repeat split; [intros [] | exact E].
  - assert (N : col_name c <> name) by (intros F; rewrite F, list_eqb_refl in E; discriminate).
    destruct (find_column name r) as [j|]; cbn [option_map].
    + destruct IH as (b & col & a & -> & <- & Nb & Ec). exists (c :: b), col, a. repeat split; auto.
      cbn [map]. intros [F | F]; auto.
    + cbn [In]. intros [F | F]; auto.
Qed.

Lemma u64_of : forall v, (exists n, v = VULong n /\ prim_try_into U64 v = Ok n) \/
  ((forall n, v <> VULong n) /\ prim_try_into U64 v = Err (EWrongValue TULong v)).
Proof. intros v. destruct v; try (right; split; [discriminate | reflexivity]). left. eexists. split; reflexivity. Qed.

Lemma settings_any : forall debug f32 f64 o c a w q0 pkts wi q rest,
  o_max_allowed_packet o = None -> Z.testbit (c_caps c) DEPRECATE_EOF_BIT = true ->
  frames 0 (3 :: s2l "select @@max_allowed_packet") w q0 -> answer_packets (c_caps c) a pkts -> framed q0 pkts wi q ->
  (forall id params columns, a <> APrepared id params columns) ->
  (forall cols p ps, a = ARows cols (p :: ps) -> text_rows debug f32 f64 cols p <> Panic) ->
  between c (wi ++ rest) ->
  exists r c', limit_after (text_rows debug f32 f64) a r /\
    read_settings debug f32 f64 o c = (match r with Ok _ => Ok tt | Err e => Err e | Panic => Panic end, c') /\
    between c' rest /\ s_out (c_stream c') = s_out (c_stream c) ++ w /\
    c_data c' = match r with Ok (Some n) => with_max (c_data c) n | _ => c_data c end.
Proof.
  intros debug f32 f64 o c a w q0 pkts wi q rest Ho Hd Fw Ha Hf Hnp Hnpan Hb.
  unfold read_settings. rewrite Ho. rewrite iob. unfold query. rewrite iob, execute_is_write.
  change (COM_QUERY :: s2l "select @@max_allowed_packet") with (3 :: s2l "select @@max_allowed_packet").
  destruct (write_command_between (3 :: s2l "select @@max_allowed_packet") c (wi ++ rest) Hd Hb) as (w' & q' & F' & c1 & E & As).
  destruct (frames_det _ _ _ _ Fw _ _ F') as (<- & <-). rewrite E. clear E F'.
  assert (Hq0 : byte_ok q0) by (eapply frames_seq_ok; [exact Fw | unfold byte_ok; lia]).
  unfold asked in As.
  assert (Hcaps : c_caps c1 = c_caps c) by (rewrite As; reflexivity).
  assert (Hseq : c_seq c1 = q0) by (rewrite As; reflexivity).
  assert (Hin : s_in (c_stream c1) = wi ++ rest) by (rewrite As; reflexivity).
  assert (Hbud : s_budget (c_stream c1) = None) by (rewrite As; reflexivity).
  assert (Hout : s_out (c_stream c1) = s_out (c_stream c) ++ w) by (rewrite As; reflexivity).
  assert (Hdata : c_data c1 = c_data c) by (rewrite As; reflexivity).
  assert (Hpen : c_pending c1 = false) by (rewrite As; reflexivity).
  clear As. subst q0.
  destruct a as [n id status warnings msg st | code state msg | cols rows | id params columns].
  - inversion Ha; subst. inversion Hf as [|? ? w0 q1 ? w1 ? F0 F1]; subst. inversion F1; subst. rewrite app_nil_r in *.
    rewrite (rs_read_ok c1 f n id status warnings msg st pkt w0 q rest); auto; [|now rewrite Hcaps].
    unfold rs_next. cbn [rs_ok]. eexists (Ok None), _. split; [constructor|]. split; [reflexivity|].
    split; [apply closed_between; split; [cbn; eapply frames_seq_ok; eauto|]; split; [exact Hbud|]; split; [exact Hpen | reflexivity]|].
    split; [exact Hout | exact Hdata].
  - inversion Ha; subst. inversion Hf as [|? ? w0 q1 ? w1 ? F0 F1]; subst. inversion F1; subst. rewrite app_nil_r in *.
    rewrite (rs_read_err c1 code state msg pkt w0 q rest); auto; [|now rewrite Hcaps].
    eexists (Err _), _. split; [constructor|]. split; [reflexivity|].
    split; [apply closed_between; split; [cbn; eapply frames_seq_ok; eauto|]; split; [exact Hbud|]; split; [exact Hpen | reflexivity]|].
    split; [exact Hout | exact Hdata].
  - destruct (rs_read_opens (c_caps c) c1 cols rows pkts wi q rest) as (c2 & E2 & O2 & D2 & S2); auto.
    rewrite E2.
    assert (Hd2 : Z.testbit (c_caps c2) DEPRECATE_EOF_BIT = true) by (unfold c_caps; rewrite D2; unfold c_caps in Hcaps; rewrite Hcaps; exact Hd).
    destruct rows as [|p rows].
    + destruct (open_end _ (text_rows debug f32 f64) cols c2 rest Hd2 O2) as (c3 & x & E3 & O3 & D3 & S3).
      rewrite E3. exists (Ok None), c3. split; [constructor|]. split; [reflexivity|].
      split; [now apply closed_between|]. split; [now rewrite S3, S2 | now rewrite D3, D2].
    + destruct (open_next _ (text_rows debug f32 f64) cols p rows c2 rest Hd2 O2) as (c3 & E3 & O3 & (D3 & S3) & _).
      rewrite E3. apply open_between in O3.
      assert (X : s_out (c_stream c3) = s_out (c_stream c) ++ w) by now rewrite S3, S2.
      assert (Y : c_data c3 = c_data c) by now rewrite D3, D2.
      specialize (Hnpan cols p rows eq_refl).
      destruct (text_rows debug f32 f64 cols p) as [vs|e|] eqn:Er; [| |contradiction]; cbn [rbind].
      * cbn [rs_columns]. pose proof (find_column_cases (s2l "@@max_allowed_packet") cols) as FC.
        destruct (find_column (s2l "@@max_allowed_packet") cols) as [i|] eqn:Ei.
        -- assert (L : length vs = length cols).
           { unfold text_rows in Er. destruct (read_text_row debug f32 f64 p cols) eqn:R; cbn in Er; try discriminate.
             injection Er as <-. eapply text_row_length; eauto. }
           apply find_column_lt in Ei. destruct FC as (b & col & af & -> & Li & Nb & Ec).
           destruct (nth_error vs i) as [v|] eqn:En; [|apply nth_error_None in En; lia].
           rewrite <- Li in En. rewrite iob.
           destruct (u64_of v) as [(n & -> & Eu) | (Nv & Eu)]; rewrite Eu; cbn [rmap_err]; unfold iores.
           ++ eexists (Ok (Some n)), _. split; [eapply limit_number; eauto|]. split; [reflexivity|].
              split; [exact O3|]. split; [exact X|]. cbn. now rewrite Y.
           ++ eexists (Err _), _. split; [eapply limit_no_number; eauto|]. split; [reflexivity|].
              split; [exact O3|]. split; [exact X | exact Y].
        -- exists (Ok None), c3. split; [eapply limit_not_named; eauto|]. split; [reflexivity|].
           split; [exact O3|]. split; [exact X | exact Y].
      * exists (Err e), c3. split; [now apply limit_bad_row|]. split; [reflexivity|].
        split; [exact O3|]. split; [exact X | exact Y].
  - now destruct (Hnp id params columns).
Qed.

(** The first column of a name is one. *)
Lemma first_named : forall name (b b' : list column) c c' a a', b ++ c :: a = b' ++ c' :: a' ->
  ~ In name (map col_name b) -> ~ In name (map col_name b') -> col_name c = name -> col_name c' = name -> length b = length b'.
Proof.
  intros name. induction b as [|x b IH]; intros [|y b'] c c' a a' E N N' Ec Ec'; cbn [app] in E; injection E as E1 E2.
  - reflexivity.
  - subst. exfalso. apply N'. now left.
  - subst. exfalso. apply N. now left.
  - cbn [length]. f_equal. cbn [map In] in N, N'. eapply IH; eauto.
Qed.

Lemma named_in : forall (b : list column) c a, In (col_name c) (map col_name (b ++ c :: a)).
Proof. intros b c a. rewrite map_app. apply in_or_app. right. now left. Qed.

Lemma limit_after_det : forall rows a r s, limit_after rows a r -> limit_after rows a s -> r = s.
Proof.
  intros rows a r s H K. remember a as a' eqn:Ea. revert Ea.
  destruct H as [| | | cols p ps e D | cols p ps vs D N | b col af p ps vs n D N Ec En | b col af p ps vs v D N Ec En Nv]; intros Ea; rewrite Ea in K;
    destruct K as [| | | cols' p' ps' e' D' | cols' p' ps' vs' D' N' | b' col' af' p' ps' vs' n' D' N' Ec' En' |
                    b' col' af' p' ps' vs' v' D' N' Ec' En' Nv']; try discriminate Ea.
  1-3: injection Ea; intros; subst; reflexivity.
  all: injection Ea as E1 E2 E3; subst p' ps'.
  all: try (rewrite <- E1 in D'; congruence).
  all: try (exfalso; apply N; rewrite E1, <- Ec'; apply named_in).
  all: try (exfalso; apply N'; rewrite <- E1, <- Ec; apply named_in).
  all: rewrite <- E1, D in D'; injection D' as <-; rewrite <- (first_named _ _ _ _ _ _ _ E1 N N' Ec Ec'), En in En'; injection En' as Ev.
  - now rewrite Ev.
  - exfalso. apply (Nv' n). now symmetry.
  - exfalso. now apply (Nv n').
  - now rewrite Ev.
Qed.
