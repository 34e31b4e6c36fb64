(** Property C49: what the user gets, for every error that arrives inside a result set. *)
From Coq Require Import String ZArith List Bool Lia.
From Verif Require Import Base BaseFacts Types Utf8 ParseBuf BufMut Spec_Wire ParseBuf_proofs Framing Framing_proofs
  Spec_Conv Packets Spec_Packets Packets_proofs Crypt Handshake ValueBin Spec_Stmt Spec_Text StmtPackets ValueText Rows Rows_proofs
  ValueText_proofs Conversion Auth Auth_proofs Conn Spec_Conn Conn_proofs Fault_proofs LongEnd_proofs EndText_proofs
  Spec_ErrorRow ErrorRow_proofs Properties_Command.
Import ListNotations.
Open Scope Z_scope.
Open Scope io_scope.

(** The error is never reported as what it is: not for any error, any columns, either kind of rows.
    And since the server is done but the set counts as open, nothing can be done with the
    connection afterwards: reading on fails, and no command is ever sent again. *)
Theorem C49_never_reported_refuted : forall e pkt c cols w q debug f32 f64,
  err_layout (Z.testbit (c_caps c) PROTOCOL_41_BIT) (Z.testbit (c_caps c) PROGRESS_BIT) e pkt ->
  0 <= c_seq c < 256 -> c_pending c = true -> frames (c_seq c) pkt w q -> s_in (c_stream c) = w ->
  forall decode, decode = text_rows debug f32 f64 \/ decode = bin_rows ->
  exists x c', rs_next decode (c, mkSet cols None) = (x, (c', mkSet cols None)) /\
    (forall s, x <> Err (EServer s)) /\ x <> Ok None /\
    fst (rs_next decode (c', mkSet cols None)) = Err (EProtocol (PIo (s_end (c_stream c)))) /\
    forall cmds, let c'' := fold_left (fun c x => snd (execute_command (fst x) (snd x) c)) cmds c' in
      s_out (c_stream c'') = s_out (c_stream c) /\
      forall cmd data, fst (execute_command cmd data c'') = Err (EProtocol (PIo (s_end (c_stream c)))).
Proof.
  intros e pkt c cols w q debug f32 f64 Hl Hs Hp Hf Hi decode Hd. destruct (err_first _ _ _ _ Hl) as (r & ->).
  assert (Hq : byte_ok (c_seq (moved c [] q))) by (eapply frames_seq_ok; eauto).
  eexists _, (moved c [] q). split; [|split; [|split; [|split]]].
  - eapply next_error; eauto. now rewrite app_nil_r.
  - intros s. assert (N : decode cols (255 :: r) <> Err (EServer s)) by (destruct Hd as [-> | ->]; apply not_server).
    destruct (decode cols (255 :: r)); cbn [rbind]; congruence.
  - destruct (decode cols (255 :: r)); cbn [rbind]; discriminate.
  - apply (next_starved _ decode (moved c [] q) cols); [exact Hq | reflexivity].
  - intros cmds. apply (starved_ever cmds (moved c [] q)); [exact Hp | reflexivity | exact Hq].
Qed.
Print Assumptions C49_never_reported_refuted.

(** A query with one column whose text is not parsed: whatever the error is, the user gets one more
    row, with an empty value. *)
Theorem C49_empty_row_refuted : forall e pkt c col w q rest debug f32 f64,
  err_layout (Z.testbit (c_caps c) PROTOCOL_41_BIT) (Z.testbit (c_caps c) PROGRESS_BIT) e pkt ->
  0 <= c_seq c < 256 -> frames (c_seq c) pkt w q -> s_in (c_stream c) = w ++ rest ->
  In (col_type col) plain_text_types ->
  fst (rs_next (text_rows debug f32 f64) (c, mkSet [col] None)) = Ok (Some [VBytes []]).
Proof.
  intros e pkt c col w q rest debug f32 f64 Hl Hs Hf Hi Ht. destruct (err_first _ _ _ _ Hl) as (r & ->).
  rewrite (next_error _ _ c [col] r w q rest Hs Hf Hi), text_error by assumption. reflexivity.
Qed.
Print Assumptions C49_empty_row_refuted.

(** A prepared statement with one column of any type: each error whose code has the bit of value 4
    set is one more row, with NULL. *)
Theorem C49_null_row_refuted : forall code state msg pkt c col w q rest,
  err_layout (Z.testbit (c_caps c) PROTOCOL_41_BIT) (Z.testbit (c_caps c) PROGRESS_BIT) (ErrError code state msg) pkt ->
  0 <= c_seq c < 256 -> frames (c_seq c) pkt w q -> s_in (c_stream c) = w ++ rest ->
  Z.testbit code 2 = true ->
  fst (rs_next bin_rows (c, mkSet [col] None)) = Ok (Some [VNull]).
Proof.
  intros code state msg pkt c col w q rest Hl Hs Hf Hi Hc. destruct (err_code _ _ _ _ _ _ Hl) as (_ & r & ->).
  rewrite (next_error _ _ c [col] _ w q rest Hs Hf Hi), bin_error by assumption. reflexivity.
Qed.
Print Assumptions C49_null_row_refuted.

(** Nor is an error recognised in place of the definition of a column: once the first packet of an
    answer is not an error, asking for the result set never ends with an error of the server,
    whatever follows. *)
Theorem C49_only_first_refuted : forall c first x r w q rest s,
  0 <= c_seq c < 256 -> first = x :: r -> x <> 255 ->
  frames (c_seq c) first w q -> s_in (c_stream c) = w ++ rest ->
  fst (rs_read c) <> Err (EServer s).
Proof. intros c first x r w q rest s Hs -> Hx Hf Hi. eapply only_first; eauto. Qed.
Print Assumptions C49_only_first_refuted.

(** The answer announces a column, then comes an error. *)
Example C49_only_first_case :
  let pkt := 255 :: wire_uint 2 1317 ++ [35] ++ s2l "70100" ++ s2l "killed" in
  frames 1 [1] (frame 1 [1]) 2 /\
  fst (query (s2l "q") (idle (frame 1 [1] ++ frame 2 pkt))) = Err (EProtocol peof).
Proof. cbv zeta. split; [apply (frames_last 1); vm_compute; reflexivity | vm_compute; reflexivity]. Qed.

(** The error of a query that is killed (1317): an empty text, or NULL. *)
Example C49_killed_case :
  let pkt := 255 :: wire_uint 2 1317 ++ [35] ++ s2l "70100" ++ s2l "killed" in
  err_layout (Z.testbit some_caps PROTOCOL_41_BIT) (Z.testbit some_caps PROGRESS_BIT)
    (ErrError 1317 (Some (s2l "70100")) (s2l "killed")) pkt /\
  frames 4 pkt (frame 4 pkt) 5 /\ In (col_type some_column) plain_text_types /\ Z.testbit 1317 2 = true /\
  text_rows true (fun _ => None) (fun _ => None) [some_column] pkt = Ok [VBytes []] /\ bin_rows [some_column] pkt = Ok [VNull].
Proof.
  cbv zeta. split; [|split; [|split; [|split; [|split]]]].
  - assert (U : forall s, forallb (fun c => (0 <=? c) && (c <? 128)) s = true -> utf8_text s s).
    { intros s H. apply utf8_text_ascii. apply Forall_forall. intros c Hc. rewrite forallb_forall in H. specialize (H c Hc). lia. }
    eapply (err_state true false 1317 (s2l "70100") (s2l "70100") (s2l "killed") (s2l "killed"));
      try reflexivity; try (apply U; reflexivity); try lia.
  - apply (frames_last 4). vm_compute. reflexivity.
  - vm_compute. auto 20.
  - reflexivity.
  - vm_compute. reflexivity.
  - vm_compute. reflexivity.
Qed.
