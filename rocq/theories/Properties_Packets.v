(** Properties C29-C33: server packets. *)
From Coq Require Import String ZArith List Bool Lia.
From Verif Require Import Base BaseFacts Types ParseBuf Packets Spec_Wire Spec_Conv Spec_Packets ParseBuf_proofs ParseBuf_proofs Packets_proofs.
Import ListNotations.
Open Scope Z_scope.

(** C29: every OK packet whose information text is absent or length-encoded is decoded faithfully;
    the status is kept up to bit 2, which no server uses. *)
Theorem C29_ok_partial : forall caps f rows id status warnings msg st pkt, f <> InfoEof ->
  ok_layout (Z.testbit caps SESSION_TRACK_BIT) f rows id status warnings msg st pkt ->
  exists x, read_ok pkt caps = Ok x /\
    ok_affected_rows x = rows /\ ok_last_insert_id x = id /\
    (forall i, Z.testbit (ok_status x) i = Z.testbit status i && negb (i =? 2)) /\
    (known_status status -> ok_status x = status) /\
    ok_warnings x = warnings /\ ok_message x = nonempty msg /\ ok_session_state_info x = nonempty st.
Proof. exact ok_exact. Qed.
Print Assumptions C29_ok_partial.

(** Without SESSION_TRACK (never requested by this crate) the documentation lets the text run to the
    end of the packet; the decoder takes its first character for a length. *)
Theorem C29_ok_refuted : exists caps pkt msg x,
  documented_form (Z.testbit caps SESSION_TRACK_BIT) InfoEof /\
  ok_layout (Z.testbit caps SESSION_TRACK_BIT) InfoEof 1 0 2 0 msg [] pkt /\
  read_ok pkt caps = Ok x /\ ok_message x <> nonempty msg.
Proof.
  exists 0, ([0; 1; 0; 2; 0; 0; 0] ++ s2l "Rows matched: 1"), (s2l "Rows matched: 1"), (mkOk 1 0 2 0 None None).
  splits; [reflexivity | | vm_compute; reflexivity | discriminate].
  exists ([1; 0; 2; 0; 0; 0] ++ s2l "Rows matched: 1"). split; [|reflexivity].
  exists [1], [0], (s2l "Rows matched: 1"). split; [apply lenenc_1; lia|]. split; [apply lenenc_1; lia|].
  split; [lia|]. split; [lia|]. split; [|reflexivity].
  constructor. apply utf8_text_ascii. vm_compute. repeat constructor; discriminate.
Qed.
Print Assumptions C29_ok_refuted.

Theorem C29_no_panic : forall pkt caps, read_ok pkt caps <> Panic.
Proof. exact read_ok_np. Qed.
Print Assumptions C29_no_panic.

(** Exactly the packets of the lenient layout are accepted, with their numbers and with their flags
    except bit 2; any other first byte
    is an unexpected packet and anything else is too short. *)
Theorem C29_accepted : forall caps pkt rows id s warnings, bytes_ok pkt ->
  (exists x, read_ok pkt caps = Ok x /\ ok_affected_rows x = rows /\ ok_last_insert_id x = id /\ ok_status x = s /\ ok_warnings x = warnings) <->
  exists status, loose_ok rows id status warnings pkt /\ forall i, Z.testbit s i = Z.testbit status i && negb (i =? 2).
Proof. exact ok_accepted. Qed.
Print Assumptions C29_accepted.

Theorem C29_refused : forall caps pkt e, bytes_ok pkt -> read_ok pkt caps = Err e ->
  (exists h r, pkt = h :: r /\ h <> 0 /\ e = PUnexpectedPacket r) \/
  ((pkt = [] \/ exists r, pkt = 0 :: r) /\ e = peof).
Proof. exact ok_refused. Qed.
Print Assumptions C29_refused.

Example C29_refused_case : read_ok [254; 1; 2; 0; 0; 0; 0] 0 = Err (PUnexpectedPacket [1; 2; 0; 0; 0; 0]) /\
  read_ok [0; 1; 2; 0; 0; 0] 0 = Err peof.
Proof. split; vm_compute; reflexivity. Qed.

Example C29_case : read_ok ([0; 252; 232; 3; 7; 2; 64; 1; 0; 2; 104; 105; 1; 120]) 0x800000 =
  Ok (mkOk 1000 7 0x4002 1 (Some (s2l "hi")) (Some (s2l "x"))).
Proof. vm_compute. reflexivity. Qed.

(** C30: what is reported for the packet that ends a result set (with DEPRECATE_EOF, nothing to say):
    the header byte is not skipped, so the status is the low byte shifted into the high byte, and
    the values are right exactly if both are zero. *)
Theorem C30_terminator_partial : forall caps status warnings, known_status status -> 0 <= warnings < 65536 ->
  let pkt := 254 :: 0 :: 0 :: wire_uint 2 status ++ wire_uint 2 warnings in
  terminator (Z.testbit caps SESSION_TRACK_BIT) InfoAbsent status warnings [] [] pkt /\
  read_eof pkt caps =
    Ok (mkOk 0 0 (256 * (status mod 256)) (status / 256 + 256 * (warnings mod 256)) None None) /\
  ((exists x, read_eof pkt caps = Ok x /\ ok_status x = status /\ ok_warnings x = warnings) <->
   status = 0 /\ warnings = 0).
Proof. exact terminator_exact. Qed.
Print Assumptions C30_terminator_partial.

(** An autocommit session: the status 0x0002 is reported as 0x0200, NO_BACKSLASH_ESCAPES. *)
Theorem C30_terminator_refuted : exists caps pkt x,
  terminator (Z.testbit caps SESSION_TRACK_BIT) InfoAbsent 2 0 [] [] pkt /\
  read_eof pkt caps = Ok x /\ ok_status x = 0x200.
Proof.
  exists 0, [254; 0; 0; 2; 0; 0; 0], (mkOk 0 0 0x200 0 None None).
  splits; [| vm_compute; reflexivity | reflexivity].
  exists [0; 0; 2; 0; 0; 0]. split; [|reflexivity].
  exists [0], [0], []. split; [apply lenenc_1; lia|]. split; [apply lenenc_1; lia|].
  split; [lia|]. split; [lia|]. split; [constructor | reflexivity].
Qed.
Print Assumptions C30_terminator_refuted.

(** Without DEPRECATE_EOF every terminator is an error. *)
Theorem C30_old_eof_refuted : forall caps status warnings pkt, old_eof status warnings pkt ->
  read_eof pkt caps = Err peof.
Proof. exact old_eof_err. Qed.
Print Assumptions C30_old_eof_refuted.

(** The reader meant for that form (not used by the crate) does not skip the header byte either:
    what it reports is off by one byte, for every terminator. *)
Theorem C30_old_eof_reader_refuted : forall status warnings pkt, old_eof status warnings pkt ->
  read_old_eof pkt = Ok (mkOk 0 0 (status_truncate (warnings / 256 + 256 * (status mod 256))) (254 + 256 * (warnings mod 256)) None None).
Proof.
  intros status warnings pkt (Hs & Hw & ->). rewrite !wire_uint_le. unfold read_old_eof. cbn [le_bytes app].
  set (a := warnings mod 256). set (b := (warnings / 256) mod 256). set (c := status mod 256). set (d := (status / 256) mod 256).
  replace (warnings / 256) with b by (unfold b; lia).
  assert (E1 : checked_eat_uint 2 [254; a; b; c; d] = (Ok (254 + 256 * a), [b; c; d])).
  { change [254; a; b; c; d] with ([254; a] ++ [b; c; d]). rewrite checked_eat_uint_val by reflexivity. cbn [le_val]. do 2 f_equal. lia. }
  rewrite (pbind_ok _ _ _ _ _ E1).
  assert (E2 : checked_eat_uint 2 [b; c; d] = (Ok (b + 256 * c), [d])).
  { change [b; c; d] with ([b; c] ++ [d]). rewrite checked_eat_uint_val by reflexivity. cbn [le_val]. do 2 f_equal. lia. }
  rewrite (pbind_ok _ _ _ _ _ E2). reflexivity.
Qed.
Print Assumptions C30_old_eof_reader_refuted.

Theorem C30_no_panic : forall pkt caps, read_eof pkt caps <> Panic.
Proof. exact read_eof_np. Qed.
Print Assumptions C30_no_panic.

Example C30_case : known_status 0x0022 /\ old_eof 2 0 [254; 0; 0; 2; 0].
Proof. split; [split; [lia | discriminate] | unfold old_eof; splits; try lia; reflexivity]. Qed.

(** C31 *)
Theorem C31_err : forall caps e pkt,
  err_layout (Z.testbit caps PROTOCOL_41_BIT) (Z.testbit caps PROGRESS_BIT) e pkt -> read_err pkt caps = Ok e.
Proof. exact read_err_layout. Qed.
Print Assumptions C31_err.

(** Nothing else is reported as a server error. *)
Theorem C31_err_exact : forall caps pkt code state msg, bytes_ok pkt ->
  read_err pkt caps = Ok (ErrError code state msg) ->
  err_layout (Z.testbit caps PROTOCOL_41_BIT) (Z.testbit caps PROGRESS_BIT) (ErrError code state msg) pkt.
Proof. exact read_err_inv. Qed.
Print Assumptions C31_err_exact.

Theorem C31_no_panic : forall pkt caps, read_err pkt caps <> Panic.
Proof. exact read_err_np. Qed.
Print Assumptions C31_no_panic.

Example C31_case :
  read_err ([255; 21; 4; 35] ++ s2l "28000" ++ s2l "Access denied") 0x200 =
    Ok (ErrError 1045 (Some (s2l "28000")) (s2l "Access denied")) /\
  read_err [255; 255; 255; 1; 1; 2; 16; 39; 0; 2; 104; 105] 0x20000200 = Ok (ErrProgress 1 2 10000 [104; 105]) /\
  read_err [255; 21; 4; 35; 50] 0x200 = Err peof.
Proof. splits; vm_compute; reflexivity. Qed.

(** C32: names of at most 250 bytes. *)
Theorem C32_column_partial : forall c pkt, column_layout_by short_name_text c pkt -> read_column pkt = Ok c.
Proof. exact read_column_short. Qed.
Print Assumptions C32_column_partial.

(** Exactly what is accepted: names with a one-byte length. *)
Theorem C32_column_exact : forall c pkt, bytes_ok pkt ->
  (read_column pkt = Ok c <-> column_layout_by u8_text c pkt).
Proof. exact read_column_iff. Qed.
Print Assumptions C32_column_exact.

(** A column name (an alias, say) of 251 bytes makes the packet unreadable. *)
Theorem C32_column_refuted : exists c pkt, column_layout c pkt /\ read_column pkt = Err (PParse EUtf8).
Proof. exact long_name. Qed.
Print Assumptions C32_column_refuted.

Theorem C32_no_panic : forall pkt, read_column pkt <> Panic.
Proof. exact read_column_np. Qed.
Print Assumptions C32_no_panic.

Example C32_case :
  read_column ([3; 100; 101; 102; 1; 100; 1; 116; 1; 117; 1; 110; 1; 111] ++
    [12; 33; 0; 255; 0; 0; 0; 3; 32; 0; 0; 0; 0]) =
  Ok (mkColumn (s2l "o") (s2l "n") (s2l "u") (s2l "t") CLong 32).
Proof. vm_compute. reflexivity. Qed.

(** C33: exactly the documented layout is accepted (with any status byte and trailing bytes);
    shorter packets are errors. *)
Theorem C33_stmt : forall pkt, bytes_ok pkt ->
  (forall x, read_stmt pkt = Ok x <->
     stmt_layout (st_id x) (st_columns_len x) (st_params_len x) (st_warning_count x) pkt) /\
  (lenZ pkt < 12 -> read_stmt pkt = Err peof) /\ read_stmt pkt <> Panic.
Proof. exact read_stmt_exact. Qed.
Print Assumptions C33_stmt.

Example C33_case : read_stmt [0; 1; 2; 0; 0; 3; 0; 4; 1; 0; 5; 0] = Ok (mkStmt 513 3 260 5).
Proof. vm_compute. reflexivity. Qed.
