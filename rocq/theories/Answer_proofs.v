(** Lemmas for C109: what is reported of an answer that may be anything, and where the connection
    stands afterwards. *)
From Coq Require Import String ZArith List Bool Lia.
From Verif Require Import Base BaseFacts Types Utf8 ParseBuf BufMut Spec_Wire Spec_Conv ParseBuf_proofs Framing Framing_proofs
  Packets Spec_Packets Packets_proofs Crypt Handshake ValueBin Spec_Stmt StmtPackets StmtPackets_proofs ValueText Rows Rows_proofs
  Conversion Auth Auth_proofs Conn Spec_Conn Conn_proofs Spec_Panic Panic_proofs Spec_Report Report_proofs Spec_Answer.
Import ListNotations.
Open Scope Z_scope.
Open Scope io_scope.

(** ** Error packets *)

Lemma pbind_err_inv : forall A B (m : P A) (f : A -> P B) b e, fst (pbind m f b) = Err e ->
  fst (m b) = Err e \/ exists x b1, m b = (Ok x, b1) /\ fst (f x b1) = Err e.
Proof.
  intros A B m f b e H. unfold pbind in H. destruct (m b) as [[x|e'|] b1]; cbn [fst] in *; [right; eauto | left; congruence | discriminate].
Qed.

Lemma checked_eat_err : forall n b e, fst (checked_eat n b) = Err e -> e = peof /\ lenZ b < n.
Proof.
  intros n b e H. unfold checked_eat in H. destruct (lenZ b >=? n) eqn:E; [|split; [cbn in H; congruence | lia]].
  unfold eat in H. destruct (lenZ b <? n) eqn:E2; discriminate.
Qed.

Lemma checked_uint_peof : forall k b e, fst (checked_eat_uint k b) = Err e -> e = peof /\ lenZ b < Z.of_nat k.
Proof.
  intros k b e H. apply pbind_err_inv in H. destruct H as [H | (x & b1 & _ & H)]; [now apply checked_eat_err in H | discriminate].
Qed.

Lemma checked_int_peof : forall b e, fst (checked_eat_lenenc_int b) = Err e -> e = peof.
Proof.
  intros b e H. apply pbind_err_inv in H. destruct H as [H | (x & b1 & _ & H)]; [now apply checked_uint_peof in H|].
  destruct (x <=? 250); [discriminate|]. destruct (x =? 252); [now apply checked_uint_peof in H|].
  destruct (x =? 253); [now apply checked_uint_peof in H|]. destruct (x =? 254); [now apply checked_uint_peof in H | discriminate].
Qed.

Lemma checked_slice_peof : forall b e, fst (checked_eat_lenenc_slice b) = Err e -> e = peof.
Proof.
  intros b e H. apply pbind_err_inv in H. destruct H as [H | (x & b1 & _ & H)]; [now apply checked_int_peof in H|].
  now apply checked_eat_err in H.
Qed.

Lemma decode_none : forall b, utf8_decode b = None -> not_text b.
Proof. intros b H s T. apply from_utf8_text in T. congruence. Qed.

Lemma err_report_read : forall caps e p, bytes_ok p ->
  err_report (Z.testbit caps PROTOCOL_41_BIT) (Z.testbit caps PROGRESS_BIT) e p -> read_err p caps = Ok e.
Proof.
  intros caps [code state msg|stage mx prog info] p Hb H; [now apply read_err_layout|].
  destruct H as (Hp & Hs & Hx & Hg & n & l & rest & Hl & ->). unfold read_err, read_err_p.
  pose proof (lenZ_nonneg _ (wire_uint 3 prog ++ l ++ info ++ rest)).
  cbn [app] in *. erewrite pbind_ok by (apply check_len_ok; rewrite !lenZ_cons; lia).
  erewrite pbind_ok by (apply eat_u8_cons). change (255 =? 255) with true. cbn [negb].
  change (255 :: 255 :: n :: stage :: mx :: wire_uint 3 prog ++ l ++ info ++ rest)
    with ([255; 255] ++ n :: stage :: mx :: wire_uint 3 prog ++ l ++ info ++ rest).
  erewrite pbind_ok by (apply eat_uint_val; reflexivity).
  change (le_val [255; 255] =? 65535) with true. rewrite progress_flag, Hp. cbn [andb].
  unfold progress_packet.
  erewrite pbind_ok.
  2:{ apply check_len_ok. rewrite !lenZ_cons, lenZ_app, wire_len. pose proof (lenZ_nonneg _ (l ++ info ++ rest)). lia. }
  erewrite pbind_ok by (apply skip_cons). erewrite pbind_ok by (apply eat_u8_cons).
  erewrite pbind_ok by (apply eat_u8_cons). erewrite pbind_ok by (apply eat_wire; exact Hg).
  assert (E : checked_eat_lenenc_slice (l ++ info ++ rest) = (Ok info, rest)).
  { apply checked_slice_iff; [|exists l; auto]. do 6 (apply Forall_inv_tail in Hb). now apply bytes_ok_app in Hb. }
  erewrite pbind_ok by exact E. reflexivity.
Qed.

Lemma two_bytes : forall a b, byte_ok a -> byte_ok b -> (le_val [a; b] =? 65535) = true <-> a = 255 /\ b = 255.
Proof. intros a b Ha Hb. unfold byte_ok in *. cbn [le_val]. lia. Qed.

Lemma read_err_refused : forall caps r e, bytes_ok r -> read_err (255 :: r) caps = Err e ->
  bad_error (Z.testbit caps PROTOCOL_41_BIT) (Z.testbit caps PROGRESS_BIT) (255 :: r) e.
Proof.
  intros caps r e Hb H. unfold read_err, read_err_p in H.
  apply pbind_err_inv in H. unfold check_len in H. destruct (lenZ (255 :: r) <? 3) eqn:L.
  { destruct H as [H | (x & b1 & H & _)]; [|discriminate]. cbn in H. injection H as <-. apply be_code.
    rewrite lenZ_cons in L. unfold lenZ in L. lia. }
  destruct H as [H | (u & b1 & H1 & H)]; [discriminate|]. injection H1 as <- <-.
  erewrite pbind_ok in H by apply eat_u8_cons. change (255 =? 255) with true in H. cbn [negb] in H.
  destruct r as [|a [|b r]]; [rewrite !lenZ_cons, lenZ_nil in L; lia | rewrite !lenZ_cons, lenZ_nil in L; lia|].
  clear L. inversion_clear Hb as [|? ? Ha Hb1]. inversion_clear Hb1 as [|? ? Hb2 Hr].
  change (a :: b :: r) with ([a; b] ++ r) in H. erewrite pbind_ok in H by (apply eat_uint_val; reflexivity).
  rewrite progress_flag, protocol_41_flag in H.
  destruct ((le_val [a; b] =? 65535) && Z.testbit caps PROGRESS_BIT) eqn:EP.
  - apply andb_prop in EP. destruct EP as (E1 & E2). apply two_bytes in E1; [|assumption|assumption]. destruct E1 as (-> & ->).
    assert (e = peof) as ->; [|now apply be_progress].
    unfold progress_packet in H. apply pbind_err_inv in H. destruct H as [H | (u & b1 & _ & H)].
    { unfold check_len in H. destruct (_ <? _); [cbn in H; congruence | discriminate]. }
    apply pbind_err_inv in H. destruct H as [H | (u1 & b2 & _ & H)]; [discriminate|].
    do 3 (apply pbind_err_inv in H; destruct H as [H | (? & ? & _ & H)];
      [apply pbind_err_inv in H; destruct H as [H | (? & ? & _ & H)]; [unfold eat in H; destruct (_ <? _) in H; discriminate | discriminate]|]).
    apply pbind_err_inv in H. destruct H as [H | (? & ? & _ & H)]; [now apply checked_slice_peof in H | discriminate].
  - assert (NP : ~ (a = 255 /\ b = 255 /\ Z.testbit caps PROGRESS_BIT = true)).
    { intros (-> & -> & X). rewrite X in EP. discriminate. }
    unfold error_packet in H. destruct (Z.testbit caps PROTOCOL_41_BIT) eqn:P4.
    2:{ erewrite pbind_ok in H by reflexivity. erewrite pbind_ok in H by reflexivity.
        apply pbind_err_inv in H. destruct H as [H | (? & ? & _ & H)]; [|discriminate].
        unfold plift, string_from_utf8 in H. destruct (utf8_decode r) eqn:U; [discriminate|]. cbn in H. injection H as <-.
        apply be_plain; auto using decode_none. }
    destruct r as [|x r]; [cbn in H; injection H as <-; now apply be_no_state|].
    apply pbind_err_inv in H. destruct H as [H | (st & b1 & H1 & H)].
    + erewrite pbind_ok in H by apply checked_eat_u8_cons. destruct (Z.eqb_spec x 35) as [->|Hx]; cbn [negb] in H.
      2:{ cbn in H. injection H as <-. now apply be_marker. }
      apply pbind_err_inv in H. destruct H as [H | (st & b1 & H1 & H)].
      { apply checked_eat_err in H. destruct H as (-> & L). apply be_state_cut; [reflexivity | unfold lenZ in L; lia]. }
      apply checked_eat_inv in H1; [|lia]. destruct H1 as (-> & L).
      apply pbind_err_inv in H. destruct H as [H | (? & ? & _ & H)]; [|discriminate].
      unfold plift, from_utf8 in H. destruct (utf8_decode st) eqn:U; [discriminate|]. cbn in H. injection H as <-.
      apply be_state; auto using decode_none. unfold lenZ in L. lia.
    + erewrite pbind_ok in H1 by apply checked_eat_u8_cons. destruct (Z.eqb_spec x 35) as [->|Hx]; cbn [negb] in H1; [|discriminate].
      apply pbind_inv in H1. destruct H1 as (s & b2 & E1 & H1). apply checked_eat_inv in E1; [|lia]. destruct E1 as (-> & L).
      apply pbind_inv in H1. destruct H1 as (t & b3 & E1 & H1). injection H1 as <- ->.
      unfold plift, from_utf8 in E1. destruct (utf8_decode s); [|discriminate]. injection E1 as _ <-.
      erewrite pbind_ok in H by reflexivity. apply pbind_err_inv in H. destruct H as [H | (? & ? & _ & H)]; [|discriminate].
      unfold plift, string_from_utf8 in H. destruct (utf8_decode b2) eqn:U; [discriminate|]. cbn in H. injection H as <-.
      apply be_message; auto using decode_none. unfold lenZ in L. lia.
Qed.

(** ** One packet *)

Lemma read_ok_refused : forall caps r e, bytes_ok (0 :: r) -> read_ok (0 :: r) caps = Err e ->
  e = too_short /\ forall rows id status warnings, ~ loose_ok rows id status warnings (0 :: r).
Proof.
  intros caps r e Hb H. split.
  - apply ok_refused in H; [|exact Hb]. destruct H as [(h & t & E & N & _) | (_ & ->)]; [injection E as <- _; contradiction | reflexivity].
  - intros rows id status warnings L. assert (X : exists x, read_ok (0 :: r) caps = Ok x /\ ok_affected_rows x = rows /\
      ok_last_insert_id x = id /\ ok_status x = status_truncate status /\ ok_warnings x = warnings).
    { apply ok_accepted; [exact Hb|]. exists status. split; [exact L|]. intros i. apply status_truncate_bit.
      destruct L as (a & b & rest & _ & _ & S & _). exact S. }
    destruct X as (x & E & _). congruence.
Qed.

Section lone.
  Context {A : Type} (decode : list column -> bytes -> res error A).

  Lemma plain_packet : forall u p c, plain u -> bytes_ok p ->
    exists y, use_done (view SDone) (iobind (decode_response p) (fun r => iores (of_server r)) c) = (y, c) /\
      reported (A := A) (c_caps c) u p y.
  Proof.
    intros u p c Hu Hb. rewrite iob. unfold decode_response. destruct p as [|x p].
    { eexists. split; [reflexivity|]. now apply rp_nothing. }
    destruct (Z.eqb_spec x 0) as [->|N0].
    - rewrite iob. unfold iores. destruct (read_ok (0 :: p) (c_caps c)) as [k|e|] eqn:E; cbn [of_protocol rmap_err].
      + eexists. split; [reflexivity|]. apply rp_done; [assumption | now apply ok_reported].
      + apply read_ok_refused in E; [|exact Hb]. destruct E as (-> & N). eexists. split; [reflexivity|].
        apply rp_cut; [destruct u; cbn in *; tauto | exact N].
      + now apply read_ok_np in E.
    - destruct (Z.eqb_spec x 255) as [->|N1].
      + rewrite iob. unfold iores. destruct (read_err (255 :: p) (c_caps c)) as [k|e|] eqn:E; cbn [of_protocol rmap_err].
        * eexists. split; [reflexivity|]. apply rp_error. now apply err_reported.
        * eexists. split; [reflexivity|]. apply rp_bad_error; [|apply read_err_refused; [now inversion Hb | exact E]].
          intros k K. apply err_report_read in K; [congruence | exact Hb].
        * now apply read_err_np in E.
      + eexists. split; [reflexivity|]. apply rp_other; auto.
  Qed.

  Lemma nexts_none : forall k c cols x, nexts decode k (c, mkSet cols (Some x)) = (repeat (Ok None) k, (c, mkSet cols (Some x))).
  Proof. induction k as [|k IH]; intros c cols x; [reflexivity|]. cbn [nexts repeat rs_next rs_ok]. now rewrite IH. Qed.

  Lemma error_packet_report : forall u p c, bytes_ok (255 :: p) ->
    exists e, (forall B, @server_error B (255 :: p) (c_caps c) = Err e) /\ reported (A := A) (c_caps c) u (255 :: p) (SFailed e).
  Proof.
    intros u p c Hb. unfold server_error.
    destruct (read_err (255 :: p) (c_caps c)) as [k|e|] eqn:E; cbn [of_protocol rmap_err rbind].
    - eexists. split; [reflexivity|]. apply rp_error. now apply err_reported.
    - eexists. split; [reflexivity|]. apply rp_bad_error; [|apply read_err_refused; [now inversion Hb | exact E]].
      intros k K. apply err_report_read in K; [congruence | exact Hb].
    - now apply read_err_np in E.
  Qed.

  (** What a use does once its request has been written. *)
  Definition answered (u : use) (c : conn) : seen A * conn :=
    match u with
    | UQuery _ k | UStmtQuery _ _ _ k => use_rows decode k (rs_read c)
    | UExecute _ | UStmtExecute _ _ _ => use_done (view SDone) (read_response c)
    | UPrepare _ => use_done (fun st => SPrepared (ps_id st) (ps_params st))
        ((packet <- conn_read ;;
          stmt <- (fun c => (if first_is 0 packet then iores (of_protocol (read_stmt packet))
              else if first_is 255 packet then iores (server_error packet (c_caps c))
              else iores (Err (EProtocol (PUnexpectedPacket packet)))) c) ;;
          skip_packets (Z.to_nat (st_params_len stmt + st_columns_len stmt)) ;;;
          ioret (mkPrepared (st_id stmt) (st_params_len stmt))) c)
    end.

  Lemma run_use_asked : forall u w q i c, Z.testbit (c_caps c) DEPRECATE_EOF_BIT = true -> use_ok u ->
    requests (use_packets u) w q -> between c i ->
    exists c1, asked c c1 i w q /\ byte_ok q /\ run_use decode u c = answered u c1.
  Proof.
    intros u w q i c Hc Hu Hr Hb. destruct (use_packets_request u Hu) as (Hn & _).
    destruct (write_commands_between (use_packets u) c i Hc Hb Hn) as (w0 & q0 & R0 & Hq & c1 & E & As).
    destruct (requests_det _ _ _ R0 _ _ Hr) as (-> & ->). exists c1. split; [exact As|]. split; [exact Hq|].
    assert (S1 : forall cmd data, use_packets u = [cmd :: data] -> execute_command cmd data c = (Ok tt, c1)).
    { intros cmd data Eu. rewrite execute_is_write. rewrite Eu in E. cbn [write_commands] in E. rewrite iob in E.
      revert E. destruct (write_command (cmd :: data) c) as [[[]|?|] c2]; unfold ioret; congruence. }
    assert (S2 : forall id values ps, execute_packets id values = Some ps -> use_packets u = ps ->
              send_execute id values c = (Ok tt, c1)).
    { intros id values ps Ep Eu. rewrite (send_execute_packets id values ps Ep), <- Eu. exact E. }
    destruct u as [qq k|qq|qq|id params values k|id params values]; cbn [run_use answered].
    - unfold query, COM_QUERY. now rewrite iob, (S1 _ _ eq_refl).
    - unfold execute_query, COM_QUERY. now rewrite iob, (S1 _ _ eq_refl).
    - unfold prepare_statement, COM_STMT_PREPARE. now rewrite iob, (S1 _ _ eq_refl).
    - destruct Hu as (U1 & U2 & U3 & U4). unfold stmt_query. cbn [ps_params ps_id].
      replace (lenZ values =? params) with true by (unfold lenZ; lia). cbn [negb].
      destruct (stmt_request_ok _ _ _ U1 U2 U3 U4) as (ps & Ep & _).
      rewrite iob, (S2 id values ps Ep); [reflexivity | cbn; now rewrite Ep].
    - destruct Hu as (U1 & U2 & U3 & U4). unfold stmt_execute. cbn [ps_params ps_id].
      replace (lenZ values =? params) with true by (unfold lenZ; lia). cbn [negb].
      destruct (stmt_request_ok _ _ _ U1 U2 U3 U4) as (ps & Ep & _).
      rewrite iob, (S2 id values ps Ep); [reflexivity | cbn; now rewrite Ep].
  Qed.

  Lemma lone_packet : forall u p c w q rest, lone_answer u p -> bytes_ok p ->
    frames (c_seq c) p w q -> byte_ok (c_seq c) -> s_in (c_stream c) = w ++ rest ->
    exists y, answered u c = (y, moved c rest q) /\ reported (c_caps c) u p y.
  Proof.
    intros u p c w q rest Hl Hb Hf Hs Hi.
    pose proof (conn_read_frames c p w q rest Hf Hs Hi) as R.
    assert (Plain : plain u -> exists y, use_done (view SDone) (read_response c) = (y, moved c rest q) /\ reported (A := A) (c_caps c) u p y).
    { intros U. unfold read_response. rewrite iob, R. exact (plain_packet u p (moved c rest q) U Hb). }
    assert (Asking : forall k, asking u k -> (exists r, p = 0 :: r \/ p = 255 :: r) ->
      exists y, use_rows decode k (rs_read c) = (y, moved c rest q) /\ reported (c_caps c) u p y).
    { intros k U (r & [-> | ->]).
      - unfold rs_read. rewrite iob, R. change (first_is 0 (0 :: r)) with true. cbn match. rewrite iob. unfold decode_response.
        change (0 =? 0) with true. cbn match. rewrite iob. unfold iores at 1. change (c_caps (moved c rest q)) with (c_caps c).
        destruct (read_ok (0 :: r) (c_caps c)) as [x|e|] eqn:E; cbn [of_protocol rmap_err].
        + unfold ioret, iores. unfold iobind; cbn [of_server rmap_err use_rows]. rewrite nexts_none. cbn [rs_ok].
          eexists. split; [reflexivity|]. apply rp_no_rows; [assumption | now apply ok_reported].
        + apply read_ok_refused in E; [|exact Hb]. destruct E as (-> & N). eexists. split; [reflexivity|].
          apply rp_cut; [destruct u; cbn in *; tauto | exact N].
        + now apply read_ok_np in E.
      - unfold rs_read. rewrite iob, R. change (first_is 0 (255 :: r)) with false. change (first_is 251 (255 :: r)) with false.
        change (first_is 255 (255 :: r)) with true. cbn match. change (c_caps (moved c rest q)) with (c_caps c).
        destruct (error_packet_report u r c Hb) as (e & E & Rp). rewrite E. eexists. split; [reflexivity | exact Rp]. }
    assert (Prepare : preparing u -> (forall r, p = 0 :: r -> (length r < 11)%nat) ->
      exists y, answered u c = (y, moved c rest q) /\ reported (c_caps c) u p y).
    { intros U L. destruct u; try contradiction. cbn [answered]. rewrite iob, R, iob. change (c_caps (moved c rest q)) with (c_caps c).
      destruct p as [|x p].
      { eexists. split; [reflexivity|]. now apply rp_no_statement. }
      unfold first_is. destruct (Z.eqb_spec x 0) as [->|N0].
      - specialize (L p eq_refl). destruct (read_stmt_exact (0 :: p) Hb) as (_ & S & _). unfold iores at 1. rewrite S.
        2:{ rewrite lenZ_cons. unfold lenZ. lia. }
        eexists. split; [reflexivity|]. now apply rp_not_prepared.
      - destruct (Z.eqb_spec x 255) as [->|N1].
        + destruct (error_packet_report (UPrepare q0) p c Hb) as (e & E & Rp). unfold iores at 1. rewrite E.
          eexists. split; [reflexivity | exact Rp].
        + eexists. split; [reflexivity|]. apply rp_other; auto. }
    destruct Hl as [U | [((k & U) & F) | (U & L)]]; [| |now apply Prepare].
    - specialize (Plain U). destruct u; try contradiction; exact Plain.
    - specialize (Asking k U F). destruct u; try contradiction; cbn in U; subst k; exact Asking.
  Qed.
End lone.

(** ** Columns *)

Lemma u8_slice_err : forall b e, fst (checked_eat_u8_slice b) = Err e -> e = peof.
Proof.
  intros b e H. apply pbind_err_inv in H. destruct H as [H | (? & ? & _ & H)]; [now apply checked_uint_peof in H | now apply checked_eat_err in H].
Qed.

Lemma u8_str_err : forall b e, bytes_ok b -> fst (checked_eat_u8_str b) = Err e ->
  e = peof \/ e = PParse EUtf8 /\ exists s r, not_text s /\ b = Z.of_nat (length s) :: s ++ r.
Proof.
  intros b e Hb H. apply pbind_err_inv in H. destruct H as [H | (s & b1 & H1 & H)]; [left; now apply u8_slice_err in H|].
  right. apply pbind_inv in H1. destruct H1 as (n & b2 & E1 & E2). apply checked_eat_uint_inv in E1; [|assumption].
  destruct E1 as (-> & Hn & _). change (256 ^ Z.of_nat 1) with 256 in Hn. rewrite wire_1 by assumption.
  apply checked_eat_inv in E2; [|lia]. destruct E2 as (-> & L). unfold plift, from_utf8 in H.
  destruct (utf8_decode s) eqn:U; [discriminate|]. cbn in H. injection H as <-. split; [reflexivity|].
  exists s, b1. split; [now apply decode_none|]. unfold lenZ in L. subst n. reflexivity.
Qed.

Lemma bad_text_at : forall pre b e, bytes_ok b -> fst (checked_eat_u8_str b) = Err e ->
  bad_column ([3; 100; 101; 102] ++ pre ++ b) e.
Proof.
  intros pre b e Hb H. apply u8_str_err in H; [|exact Hb]. destruct H as [-> | (-> & s & r & N & ->)]; [apply bc_short | now apply bc_text].
Qed.

Lemma eat_uint_noerr : forall k b e, fst (eat_uint k b) <> Err e.
Proof.
  intros k b e H. apply pbind_err_inv in H. destruct H as [H | (? & ? & _ & H)]; [|discriminate].
  unfold eat in H. destruct (_ <? _) in H; discriminate.
Qed.

Lemma read_column_refused : forall p e, bytes_ok p -> read_column p = Err e -> bad_column p e.
Proof.
  intros p e Hb H. unfold read_column in H. assert (H0 : fst (column_def_p p) = Err e).
  { destruct (fst (column_def_p p)); [discriminate | cbn in H; congruence | discriminate]. }
  clear H. rename H0 into H. unfold column_def_p in H.
  apply pbind_err_inv in H. destruct H as [H | (cat & b1 & E1 & H)]; [apply u8_slice_err in H; subst; apply bc_short|].
  apply pbind_inv in E1. destruct E1 as (n & b2 & E1 & E2).
  apply checked_eat_uint_inv in E1; [|assumption]. destruct E1 as (-> & Hn & Hb2).
  change (256 ^ Z.of_nat 1) with 256 in Hn. rewrite wire_1 by assumption.
  apply checked_eat_inv in E2; [|lia]. destruct E2 as (-> & L). pose proof (bytes_ok_app _ _ Hb2) as Hb1.
  destruct (list_eqb cat (s2l "def"%string)) eqn:Ec; cbn [negb] in H.
  2:{ cbn [fst] in H. injection H as <-. apply (bc_catalog n cat b1); [exact L|]. intros ->. discriminate. }
  apply list_eqb_eq in Ec. subst cat. change (s2l "def"%string) with [100; 101; 102] in *.
  assert (n = 3) as -> by (rewrite <- L; reflexivity). clear L Hn Hb.
  change ([3] ++ [100; 101; 102] ++ b1) with ([3; 100; 101; 102] ++ [] ++ b1).
  assert (Step : forall B (f : str -> P B) pre b, bytes_ok b -> fst (pbind checked_eat_u8_str f b) = Err e ->
    bad_column ([3; 100; 101; 102] ++ pre ++ b) e \/
    exists s pre' b', bytes_ok b' /\ pre ++ b = pre' ++ b' /\ fst (f s b') = Err e).
  { intros B f pre b Hx X. apply pbind_err_inv in X. destruct X as [X | (s & b' & E1 & X)]; [left; now apply bad_text_at|].
    right. apply u8_str_inv in E1; [|exact Hx]. destruct E1 as (w & _ & -> & Hb'). exists s, (pre ++ w), b'.
    splits; auto. now rewrite app_assoc. }
  assert (Num : forall B k (f : Z -> P B) (pre b : bytes), bytes_ok b -> fst (pbind (eat_uint k) f b) = Err e ->
    exists x b', bytes_ok b' /\ pre ++ b = pre ++ wire_uint k x ++ b' /\ 0 <= x < 256 ^ Z.of_nat k /\ fst (f x b') = Err e).
  { intros B k f pre b Hx X. apply pbind_err_inv in X. destruct X as [X | (x & b' & E1 & X)]; [now apply eat_uint_noerr in X|].
    apply eat_uint_inv in E1; [|exact Hx]. destruct E1 as (-> & Hr & Hb'). exists x, b'. splits; auto; lia. }
  enough (G : forall pre0, bad_column ([3; 100; 101; 102] ++ pre0 ++ b1) e) by exact (G []). intros pre0.
  do 5 (apply (Step _ _ pre0 _ Hb1) in H; clear Hb1; destruct H as [H | (? & pre & b2 & Hb1 & Eb & H)]; [exact H|];
        rewrite Eb; clear Eb pre0 Hb2 b1 || clear Eb pre0 b1; rename pre into pre0; rename b2 into b1).
  apply pbind_err_inv in H. destruct H as [H | (u & b3 & E1 & H)].
  { unfold check_len in H. destruct (_ <? _) in H; [cbn in H; injection H as <-; apply bc_short | discriminate]. }
  apply check_len_inv in E1. destruct E1 as (-> & _).
  apply (Num _ _ _ pre0) in H; [|exact Hb1]. destruct H as (tw & b4 & Hb4 & E & _ & H). rewrite E. clear E.
  destruct (Z.eqb_spec tw 12); cbn [negb] in H; [|cbn in H; injection H as <-; apply bc_short].
  apply (Num _ _ _ (pre0 ++ wire_uint 1 tw)) in H; [|exact Hb4]. destruct H as (cs & b5 & Hb5 & E & _ & H).
  rewrite (app_assoc pre0), E. clear E.
  apply (Num _ _ _ ((pre0 ++ wire_uint 1 tw) ++ wire_uint 2 cs)) in H; [|exact Hb5]. destruct H as (ln & b6 & Hb6 & E & _ & H).
  rewrite (app_assoc (pre0 ++ wire_uint 1 tw)), E. clear E.
  apply (Num _ _ _ (((pre0 ++ wire_uint 1 tw) ++ wire_uint 2 cs) ++ wire_uint 4 ln)) in H; [|exact Hb6].
  destruct H as (ty & b7 & Hb7 & E & Ht & H).
  rewrite (app_assoc ((pre0 ++ wire_uint 1 tw) ++ wire_uint 2 cs)), E. clear E.
  change (256 ^ Z.of_nat 1) with 256 in Ht. rewrite (wire_1 ty) by assumption.
  generalize (((pre0 ++ wire_uint 1 tw) ++ wire_uint 2 cs) ++ wire_uint 4 ln) as pre. intros pre.
  apply pbind_err_inv in H. destruct H as [H | (t & b8 & E1 & H)].
  { unfold column_type_p in H. destruct (column_type_of ty) eqn:T; [discriminate|]. cbn in H. injection H as <-.
    apply bc_type. intros t I. apply type_code_of in I. destruct I as (I & _). congruence. }
  do 2 (apply pbind_err_inv in H; destruct H as [H | (? & ? & _ & H)]; [now apply eat_uint_noerr in H|]).
  apply pbind_err_inv in H. destruct H as [H | (? & ? & _ & H)]; discriminate.
Qed.

Lemma defs_refused : forall good cols bad c w q n rest, Forall2 (column_layout_by u8_text) cols good -> Forall bytes_ok good ->
  bytes_ok bad -> (forall col, ~ column_layout_by u8_text col bad) -> (length good < n)%nat ->
  framed (c_seq c) (good ++ [bad]) w q -> byte_ok (c_seq c) -> s_in (c_stream c) = w ++ rest ->
  exists e, read_column_defs n c = (Err (EProtocol e), moved c rest q) /\ bad_column bad e.
Proof.
  intros good cols bad c w q n rest H. revert c w q n rest.
  induction H as [|col def cols good Hc Hr IH]; intros c w q n rest Hg Hb Hn Hl Hf Hs Hi;
    (destruct n as [|n]; [cbn in Hl; lia|]); cbn [app] in Hf; inversion Hf as [|? ? w0 q0 ? w' ? Hf0 Hf1]; subst; rewrite <- app_assoc in Hi.
  - inversion Hf1; subst. cbn [read_column_defs]. rewrite iob, (conn_read_frames c _ w0 _ _ Hf0 Hs Hi), iob. unfold iores.
    destruct (read_column bad) as [col|e|] eqn:E; [|eexists; split; [reflexivity | now apply read_column_refused]|now apply read_column_np in E].
    apply read_column_iff in E; [|exact Hb]. now apply Hn in E.
  - inversion_clear Hg as [|? ? Hd Hg']. cbn [length] in Hl. cbn [read_column_defs].
    rewrite iob, (conn_read_frames c _ w0 _ _ Hf0 Hs Hi), iob. unfold iores at 1.
    apply read_column_iff in Hc; [|exact Hd]. rewrite Hc. cbn [of_protocol rmap_err].
    destruct (IH (moved c (w' ++ rest) q0) w' q n rest) as (e & E & B); auto; [lia | cbn; eapply frames_seq_ok; eauto |].
    rewrite iob, E. exists e. split; [reflexivity | exact B].
Qed.

Lemma framed_long : forall q ps w q', framed q ps w q' -> (length ps <= length w)%nat.
Proof.
  induction 1 as [|q p w q1 ps w' q2 F _ IH]; cbn [length]; [lia|]. rewrite app_length.
  assert (1 <= length w)%nat; [|lia]. inversion F; subst; rewrite !app_length; cbn [length]; lia.
Qed.

Section columns.
  Context {A : Type} (decode : list column -> bytes -> res error A).

  Lemma columns_refused : forall u k n first cols good bad others status warnings last c w q rest,
    asking u k -> bytes_ok first -> announces n first -> n * 104 <= 2 ^ 63 - 1 ->
    Forall2 (column_layout_by u8_text) cols good -> Forall bytes_ok good -> bytes_ok bad ->
    (forall col, ~ column_layout_by u8_text col bad) -> Z.of_nat (length good) < n ->
    Forall row_packet others -> end_of_rows status warnings last ->
    framed (c_seq c) ([first] ++ good ++ [bad] ++ others ++ [last]) w q ->
    byte_ok (c_seq c) -> s_budget (c_stream c) = None -> s_in (c_stream c) = w ++ rest ->
    exists e c', answered decode u c = (SFailed (EProtocol e), c') /\ bad_column bad e /\ between c' rest /\
      c_data c' = c_data c /\ s_out (c_stream c') = s_out (c_stream c).
  Proof.
    intros u k n first cols good bad others status warnings last c w q rest Hu Hb (l & r & x & t & E1 & E2 & N0 & N1 & N2 & Hl)
      Hcap Hc Hg Hbad Hno Hlen Ho He Hf Hs Hbd Hi.
    inversion Hf as [|? ? w0 q0 ? w' ? Hf0 Hf1]; subst. rewrite <- app_assoc in Hi.
    change (framed q0 (good ++ [bad] ++ (others ++ [last])) w' q) in Hf1. rewrite app_assoc in Hf1. apply framed_app in Hf1. destruct Hf1 as (w1 & q1 & w2 & Fa & Fb & ->).
    pose proof (framed_long _ _ _ _ Fa) as LW. rewrite app_length in LW. cbn [length] in LW.
    assert (C : fst (checked_eat_lenenc_int (l ++ r)) = Ok n).
    { assert (X : checked_eat_lenenc_int (l ++ r) = (Ok n, r)) by (apply checked_int_iff; [exact Hb | eauto]). now rewrite X. }
    assert (Q0 : byte_ok q0) by (eapply frames_seq_ok; eauto).
    destruct (defs_refused good cols bad (mkConn (with_in (c_stream c) (w1 ++ w2 ++ rest)) q0 (c_data c) true) w1 q1
      (Z.to_nat (Z.min n (lenZ (w1 ++ w2 ++ rest) + 1))) (w2 ++ rest)) as (e & E & B); auto.
    { rewrite lenZ_app. pose proof (lenZ_nonneg _ (w2 ++ rest)) as P0. set (z := lenZ (w2 ++ rest)) in *. clearbody z. unfold lenZ.
      clear - P0 LW Hlen. change (@length (list Z) good) with (@length bytes good) in *.
      change (@length Z w1) with (length w1) in *. lia. }
    assert (R : rs_read c = (Err (EProtocol e), mkConn (with_in (c_stream c) (w2 ++ rest)) q1 (c_data c) true)).
    { unfold rs_read. rewrite iob, (conn_read_frames c _ w0 q0 (w1 ++ w2 ++ rest) Hf0 Hs). 2:{ rewrite Hi, <- app_assoc. reflexivity. }
      rewrite E2. unfold first_is. replace (x =? 0) with false by lia. replace (x =? 251) with false by lia.
      replace (x =? 255) with false by lia. rewrite <- E2. rewrite iob. unfold set_pending. rewrite iob. unfold iores at 1. rewrite C.
      cbn [of_protocol rmap_err]. unfold capacity_overflow, COLUMN_SIZE. replace (2 ^ 63 - 1 <? n * 104) with false by lia.
      rewrite iob. change (s_in (c_stream (mkConn (c_stream (moved c (w1 ++ w2 ++ rest) q0)) (c_seq (moved c (w1 ++ w2 ++ rest) q0))
        (c_data (moved c (w1 ++ w2 ++ rest) q0)) true))) with (w1 ++ w2 ++ rest).
      unfold moved in *. cbn [c_stream c_seq c_data with_in] in *. rewrite E. reflexivity. }
    exists e, (mkConn (with_in (c_stream c) (w2 ++ rest)) q1 (c_data c) true). split.
    { destruct u; try contradiction; cbn [answered]; rewrite R; reflexivity. }
    split; [exact B|]. split; [|split; reflexivity].
    split; [cbn; eapply framed_seq_ok; eauto|]. split; [exact Hbd|]. right. split; [reflexivity|].
    exists others, status, warnings, last, w2, q. auto.
  Qed.
End columns.

(** ** Conversations *)

Lemma run_use_shown : forall A (decode : list column -> bytes -> res error A) u w q pkts wi q' c rest,
  Z.testbit (c_caps c) DEPRECATE_EOF_BIT = true -> use_ok u -> requests (use_packets u) w q ->
  answerable decode (c_caps c) u pkts -> framed q pkts wi q' -> between c (wi ++ rest) ->
  exists y c', run_use decode u c = (y, c') /\ shown decode (c_caps c) u pkts y /\ between c' rest /\ c_data c' = c_data c /\
    s_out (c_stream c') = s_out (c_stream c) ++ w.
Proof.
  intros A decode u w q pkts wi q' c rest Hc Hu Hr Ha Hf Hb.
  destruct Ha as [u a y pkts Ha He | u p Hl Hp | u k bad pkts Hk Hbad].
  - destruct (run_use_served A decode u a y w q pkts wi q' c rest) as (c' & E & B & D & O); auto.
    exists y, c'. splits; auto. now apply sh_answer with a.
  - destruct (run_use_asked decode u w q (wi ++ rest) c Hc Hu Hr Hb) as (c1 & As & Hq & E).
    assert (Hc1 : c_caps c1 = c_caps c) by (rewrite As; reflexivity).
    inversion Hf as [|? ? w0 q0 ? w' ? Hf0 Hf1]; subst. inversion Hf1; subst. rewrite app_nil_r in *.
    destruct (lone_packet decode u p c1 w0 q' rest) as (y & E1 & Rp); auto; [rewrite As; exact Hf0 | rewrite As; exact Hq | rewrite As; reflexivity|].
    exists y, (moved c1 rest q'). rewrite E, E1. split; [reflexivity|]. rewrite Hc1 in Rp. split; [now apply sh_lone|].
    split; [|split; rewrite As; reflexivity].
    apply moved_between; [eapply frames_seq_ok; eauto | rewrite As; reflexivity | rewrite As; reflexivity].
  - destruct (run_use_asked decode u w q (wi ++ rest) c Hc Hu Hr Hb) as (c1 & As & Hq & E).
    pose proof Hbad as Hbad'.
    destruct Hbad as (n & first & cols & good & others & status & warnings & last & -> & Hn & Hcap & Hlen & Hg & Hno & Ho & He & Hbytes).
    apply Forall_app in Hbytes. destruct Hbytes as (B1 & B2). apply Forall_app in B2. destruct B2 as (B2 & B3).
    destruct (columns_refused decode u k n first cols good bad others status warnings last c1 wi q' rest)
      as (e & c' & E1 & Be & Bt & D & O); auto; [now inversion B1 | now inversion B3 | rewrite As; exact Hf | rewrite As; exact Hq |
        rewrite As; reflexivity | rewrite As; reflexivity |].
    exists (SFailed (EProtocol e)), c'. rewrite E. split; [exact E1|]. split; [now apply sh_columns with k bad|].
    split; [exact Bt|]. rewrite D, O, As. split; reflexivity.
Qed.

Lemma run_uses_shown : forall A (decode : list column -> bytes -> res error A) caps l i o,
  conversation decode caps use_packets l i o -> Z.testbit caps DEPRECATE_EOF_BIT = true ->
  forall c rest, c_caps c = caps -> between c (i ++ rest) ->
  exists ys c', run_uses decode (map fst l) c = (ys, c') /\ Forall2 (fun x y => shown decode caps (fst x) (snd x) y) l ys /\
    between c' rest /\ c_data c' = c_data c /\ s_out (c_stream c') = s_out (c_stream c) ++ o.
Proof.
  intros A decode caps l i o H Hd. induction H as [|u w q pkts wi q' l i o Hu Hr Ha Hf Hh IH]; intros c rest Hc Hb.
  - exists [], c. rewrite app_nil_r. splits; auto.
  - rewrite <- app_assoc in Hb. subst caps.
    destruct (run_use_shown A decode u w q pkts wi q' c (i ++ rest)) as (y & c1 & E & Sh & B & D & O); auto.
    destruct (IH c1 rest) as (ys & c2 & E2 & Sh2 & B2 & D2 & O2); [unfold c_caps; now rewrite D | assumption |].
    cbn [map run_uses fst snd]. rewrite E, E2. exists (y :: ys), c2. split; [reflexivity|].
    split; [constructor; [exact Sh | exact Sh2]|]. split; [assumption|].
    rewrite D2, D, O2, O, app_assoc. auto.
Qed.
