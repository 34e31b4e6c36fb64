(** Property C30, when the packet that ends a result set has something to say. *)
From Coq Require Import String ZArith List Bool Lia.
From Verif Require Import Base BaseFacts Types ParseBuf Packets Spec_Wire Spec_Conv Spec_Packets Utf8 ParseBuf_proofs Rows_proofs
  Conversion Conversion_proofs Packets_proofs LongEnd_proofs.
Import ListNotations.
Open Scope Z_scope.

(** With one byte behind the warnings the status and the warnings are read as without it. *)
Theorem C30_one_more_partial : forall caps status warnings x, 0 <= status < 65536 -> 0 <= warnings < 65536 ->
  exists y, read_eof (254 :: 0 :: 0 :: wire_uint 2 status ++ wire_uint 2 warnings ++ [x]) caps = Ok y /\
    ok_status y = 256 * (status mod 256) /\ ok_warnings y = status / 256 + 256 * (warnings mod 256).
Proof. exact one_more. Qed.
Print Assumptions C30_one_more_partial.

(** With two or more, neither the status nor the warnings of the packet have any influence: what is
    reported depends on the text alone. *)
Theorem C30_from_text_refuted : forall caps status warnings status' warnings' c, (2 <= length c)%nat ->
  read_eof (254 :: 0 :: 0 :: wire_uint 2 status ++ wire_uint 2 warnings ++ c) caps =
  read_eof (254 :: 0 :: 0 :: wire_uint 2 status' ++ wire_uint 2 warnings' ++ c) caps.
Proof. exact long_end_text. Qed.
Print Assumptions C30_from_text_refuted.

(** With two to six bytes there is not enough text to take them from: a result set that ended well
    is reported as an error, whatever the packet says. *)
Theorem C30_short_text_refuted : forall caps status warnings c, (2 <= length c <= 6)%nat ->
  read_eof (254 :: 0 :: 0 :: wire_uint 2 status ++ wire_uint 2 warnings ++ c) caps = Err peof.
Proof. exact long_end_err. Qed.
Print Assumptions C30_short_text_refuted.

(** So for a server that tells the name of the state "db" in a correct terminator, and for one whose
    text is "12345678": the status reported is the text "34", the warnings are "56". *)
Theorem C30_long_end_refuted : exists caps pkt pkt' x,
  terminator (Z.testbit caps SESSION_TRACK_BIT) InfoLenenc 0x4002 0 [] (s2l "db") pkt /\
  read_eof pkt caps = Err peof /\
  terminator (Z.testbit caps SESSION_TRACK_BIT) InfoLenenc 2 0 (s2l "12345678") [] pkt' /\
  read_eof pkt' caps = Ok x /\ ok_status x = 0x3433 /\ ok_warnings x = 0x3635.
Proof.
  exists 0x800000, [254; 0; 0; 2; 64; 0; 0; 0; 2; 100; 98], [254; 0; 0; 2; 0; 0; 0; 8; 49; 50; 51; 52; 53; 54; 55; 56].
  eexists. splits.
  - exists [0; 0; 2; 64; 0; 0; 0; 2; 100; 98]. split; [|reflexivity].
    exists [0], [0], [0; 2; 100; 98]. split; [apply lenenc_1; lia|]. split; [apply lenenc_1; lia|].
    split; [lia|]. split; [lia|]. split; [|reflexivity].
    apply (oi_state _ _ [] (s2l "db") [0] [2; 100; 98]); [reflexivity| |].
    + exists [], [0]. split; [apply decode_text; [constructor | reflexivity]|]. split; [apply lenenc_1; cbn; lia | reflexivity].
    + exists [100; 98], [2]. split; [apply decode_text; [repeat constructor; lia | reflexivity]|]. split; [apply lenenc_1; cbn; lia | reflexivity].
  - vm_compute. reflexivity.
  - exists [0; 0; 2; 0; 0; 0; 8; 49; 50; 51; 52; 53; 54; 55; 56]. split; [|reflexivity].
    exists [0], [0], [8; 49; 50; 51; 52; 53; 54; 55; 56]. split; [apply lenenc_1; lia|]. split; [apply lenenc_1; lia|].
    split; [lia|]. split; [lia|]. split; [|reflexivity].
    apply oi_lenenc; [reflexivity|]. exists [49; 50; 51; 52; 53; 54; 55; 56], [8].
    split; [apply decode_text; [repeat constructor; lia | reflexivity]|]. split; [apply lenenc_1; cbn; lia | reflexivity].
  - vm_compute. reflexivity.
  - reflexivity.
  - reflexivity.
Qed.
Print Assumptions C30_long_end_refuted.

Example C30_one_more_case : read_eof [254; 0; 0; 2; 0; 3; 0; 0] 0 = Ok (mkOk 0 0 0x200 0x300 None None) /\
  (254 :: 0 :: 0 :: wire_uint 2 2 ++ wire_uint 2 3 ++ [0]) = [254; 0; 0; 2; 0; 3; 0; 0].
Proof. split; vm_compute; reflexivity. Qed.

Example C30_from_text_case : (2 <= length (8%Z :: s2l "12345678"))%nat /\ (2 <= length [1%Z; 97%Z] <= 6)%nat.
Proof. cbn; lia. Qed.
