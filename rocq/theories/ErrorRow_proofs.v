(** An error packet where a row is expected. *)
From Coq Require Import String ZArith List Bool Lia.
From Verif Require Import Base BaseFacts Types Utf8 ParseBuf BufMut Spec_Wire ParseBuf_proofs Framing Framing_proofs
  Spec_Conv Packets Spec_Packets Packets_proofs Crypt Handshake Handshake_proofs ValueBin NullBitmap Spec_Stmt Spec_Text StmtPackets ValueText Rows Rows_proofs
  ValueText_proofs Conversion Auth Auth_proofs Conn Spec_Conn Conn_proofs Fault_proofs LongEnd_proofs EndText_proofs
  Spec_ErrorRow.
Import ListNotations.
Open Scope Z_scope.
Open Scope io_scope.

(** 255 is read as a length of zero. *)
Lemma length_error : forall r, checked_eat_lenenc_slice (255 :: r) = (Ok [], r).
Proof.
  intros r. unfold checked_eat_lenenc_slice. erewrite pbind_ok.
  2:{ unfold checked_eat_lenenc_int. erewrite pbind_ok.
      2:{ apply (checked_eat_uint_val 1 [255] r). reflexivity. }
      reflexivity. }
  exact (checked_eat_app 0 [] r eq_refl).
Qed.

Lemma text_error : forall debug f32 f64 col r, In (col_type col) plain_text_types ->
  text_rows debug f32 f64 [col] (255 :: r) = Ok [VBytes []].
Proof.
  intros debug f32 f64 col r H. unfold text_rows, read_text_row. cbn [text_values].
  assert (E : deserialize_text debug f32 f64 (col_type col) (col_flags col) (255 :: r) = (Ok (VBytes []), r)).
  { unfold deserialize_text. change (255 =? 251) with false. cbv iota. erewrite pbind_ok; [|apply length_error].
    unfold plain_text_types in H. cbn [In] in H.
    repeat (destruct H as [H | H]; [rewrite <- H; reflexivity|]). contradiction. }
  erewrite pbind_ok; [|exact E]. reflexivity.
Qed.

Lemma err_code : forall p41 progress code state msg pkt, err_layout p41 progress (ErrError code state msg) pkt ->
  0 <= code < 65536 /\ exists r, pkt = 255 :: wire_uint 2 code ++ r.
Proof. intros p41 progress code state msg pkt H. inversion H; subst; (split; [assumption | eexists; reflexivity]). Qed.

(** The low byte of the code is read as the bitmap of NULLs. *)
Lemma bin_error : forall col code r, Z.testbit code 2 = true ->
  bin_rows [col] (255 :: wire_uint 2 code ++ r) = Ok [VNull].
Proof.
  intros col code r H. rewrite wire_uint_le. unfold le_bytes. cbn [app].
  unfold bin_rows, read_bin_row.
  assert (K : skip 1 (255 :: code mod 256 :: code / 256 mod 256 :: r) = (Ok tt, code mod 256 :: code / 256 mod 256 :: r))
    by exact (skip_app 1 [255] (code mod 256 :: code / 256 mod 256 :: r) eq_refl).
  erewrite pbind_ok; [|exact K]. erewrite pbind_ok.
  2:{ exact (checked_eat_app 1 [code mod 256] (code / 256 mod 256 :: r) eq_refl). }
  cbn [bin_row_values].
  replace (is_null false [code mod 256] 0) with (Some true); [reflexivity|].
  change (is_null false [code mod 256] 0) with (Some (negb (Z.land (code mod 256) 4 =? 0))). f_equal. symmetry.
  apply negb_true_iff, Z.eqb_neq. intros E. apply (f_equal (fun z => Z.testbit z 2)) in E.
  rewrite Z.land_spec in E. change 256 with (2 ^ 8) in E. rewrite Z.mod_pow2_bits_low in E by lia.
  rewrite H in E. discriminate.
Qed.

Lemma not_server : forall A (x : res protocol_error A) s, of_protocol x <> Err (EServer s).
Proof. intros A [a|e|] s; cbn; discriminate. Qed.

Lemma next_error : forall A (decode : list column -> bytes -> res error A) c cols r w q rest,
  byte_ok (c_seq c) -> frames (c_seq c) (255 :: r) w q -> s_in (c_stream c) = w ++ rest ->
  rs_next decode (c, mkSet cols None) =
    (rbind (decode cols (255 :: r)) (fun a => Ok (Some a)), (moved c rest q, mkSet cols None)).
Proof.
  intros A decode c cols r w q rest Hs Hf Hi. unfold rs_next. cbn [rs_ok rs_columns].
  rewrite (conn_read_frames c _ w q rest Hf Hs Hi). change (c_caps (moved c rest q)) with (c_caps c).
  unfold is_last. change (255 =? 254) with false. reflexivity.
Qed.

Lemma next_starved : forall A (decode : list column -> bytes -> res error A) c cols, byte_ok (c_seq c) -> s_in (c_stream c) = [] ->
  fst (rs_next decode (c, mkSet cols None)) = Err (EProtocol (PIo (s_end (c_stream c)))).
Proof.
  intros A decode c cols Hs Hi. unfold rs_next. cbn [rs_ok]. now rewrite (conn_read_empty c Hi Hs).
Qed.

(** Behind the first packet of an answer no error is recognised. *)
Lemma defs_not_server : forall n c s, fst (read_column_defs n c) <> Err (EServer s).
Proof.
  induction n as [|n IH]; intros c s; cbn [read_column_defs]; [discriminate|]. rewrite iob.
  destruct (conn_read c) as [[p|e|] c1] eqn:E; cbn [fst]; try discriminate.
  - rewrite iob. unfold iores at 1. destruct (read_column p) as [col|e|]; cbn [of_protocol rmap_err fst]; try discriminate.
    rewrite iob. specialize (IH c1 s). destruct (read_column_defs n c1) as [[l|e|] c2]; cbn [fst ioret] in *; [unfold ioret; cbn [fst]; discriminate | congruence | discriminate].
  - apply conn_read_errors in E. destruct E as (p & ->). discriminate.
Qed.

Lemma only_first : forall c x r w q rest s, byte_ok (c_seq c) -> frames (c_seq c) (x :: r) w q -> s_in (c_stream c) = w ++ rest ->
  x <> 255 -> fst (rs_read c) <> Err (EServer s).
Proof.
  intros c x r w q rest s Hs Hf Hi Hx. unfold rs_read. rewrite iob, (conn_read_frames c _ w q rest Hf Hs Hi).
  cbn [first_is]. destruct (x =? 0) eqn:E0.
  - rewrite iob. cbn [decode_response]. rewrite E0, iob. unfold iores at 1.
    destruct (read_ok (x :: r) (c_caps (moved c rest q))); cbn [of_protocol rmap_err fst]; discriminate.
  - destruct (x =? 251); [discriminate|]. replace (x =? 255) with false by lia.
    rewrite iob. unfold set_pending. rewrite iob. unfold iores at 1.
    destruct (fst (checked_eat_lenenc_int (x :: r))) as [n|e|]; cbn [of_protocol rmap_err fst]; try discriminate.
    destruct (capacity_overflow n); [discriminate|]. rewrite iob.
    match goal with |- context [read_column_defs ?k ?c0] => pose proof (defs_not_server k c0 s) as N; destruct (read_column_defs k c0) as [[l|e|] c2] end;
      cbn [fst] in *; [discriminate | congruence | discriminate].
Qed.
