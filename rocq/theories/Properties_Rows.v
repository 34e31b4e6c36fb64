(** Properties C12-C15: result-set rows. *)
From Coq Require Import String ZArith List Bool Lia.
From Verif Require Import Base BaseFacts Types ParseBuf ValueBin NullBitmap ValueText Rows
  Spec_Wire Spec_Stmt Spec_Text ValueText_proofs Rows_proofs.
Import ListNotations.
Open Scope Z_scope.

(** A column given by type and flags, for the examples. *)
Definition col (t : column_type) (flags : Z) : column := mkColumn [] [99] [] [116] t flags.

(** C12: a text row decodes to the values sent.  Missing: LONG_BLOB columns (refuted below).
    Decimal, date and time texts are those of Spec_Text; the text form of floats is any relation
    the standard library's parser inverts. *)
Theorem C12_text_rows_partial :
  forall (f32_text f64_text : Z -> list Z -> Prop) (f32 f64 : str -> option Z) debug cols vs pkt tail,
  (forall x l, f32_text x l -> Forall (fun c => 0 <= c < 128) l /\ f32 l = Some x) ->
  (forall x l, f64_text x l -> Forall (fun c => 0 <= c < 128) l /\ f64 l = Some x) ->
  text_row f32_text f64_text
    (map (fun c => (col_type c, has_flag (col_flags c) UNSIGNED_FLAG)) cols) vs pkt ->
  Forall (fun c => col_type c <> CLongBlob) cols ->
  read_text_row debug f32 f64 (pkt ++ tail) cols = Ok vs.
Proof. exact text_row_ok'. Qed.
Print Assumptions C12_text_rows_partial.

Theorem C12_text_rows_refuted : exists cols vs pkt,
  text_row (fun _ _ => False) (fun _ _ => False)
    (map (fun c => (col_type c, has_flag (col_flags c) UNSIGNED_FLAG)) cols) vs pkt /\
  forall debug f32 f64, read_text_row debug f32 f64 pkt cols = Panic.
Proof.
  exists [col CLongBlob 0], [VBytes [120]], [1; 120]. split.
  - apply (tr_val _ _ CLongBlob false [] (VBytes [120]) [] [120] [1] []);
      [constructor; constructor | constructor; cbn; lia | constructor].
  - reflexivity.
Qed.
Print Assumptions C12_text_rows_refuted.

(** A row with an integer, a NULL, a time with fraction and a string. *)
Example C12_case : exists vs pkt,
  text_row (fun _ _ => False) (fun _ _ => False)
    [(CLong, false); (CShort, true); (CTime, false); (CVarString, false)] vs pkt /\
  vs = [VInt (-42); VNull; VTime true 1 10 5 6 120000; VBytes [104; 105]] /\
  read_text_row false (fun _ => None) (fun _ => None) pkt
    [col CLong 0; col CShort 32; col CTime 0; col CVarString 0] = Ok vs.
Proof.
  eexists _, ([3; 45; 52; 50] ++ [251] ++ ([12; 45; 51; 52; 58; 48; 53; 58; 48; 54; 46; 49; 50]) ++ [2; 104; 105]).
  splits; [|reflexivity|vm_compute; reflexivity].
  apply (tr_val _ _ CLong false _ _ _ [45; 52; 50] [3] _).
  - apply te_long_s; [auto | lia |]. right. exists [52; 50]. split; [reflexivity|].
    unfold nat_text. splits; [discriminate | repeat constructor; unfold digit; lia | reflexivity].
  - constructor. cbn. lia.
  - apply tr_null.
    apply (tr_val _ _ CTime false _ _ _ [45; 51; 52; 58; 48; 53; 58; 48; 54; 46; 49; 50] [12] _).
    + apply te_time. apply spec_time_neg; try lia.
      exists [51; 52], [48; 53], [48; 54], [46; 49; 50]. splits; [reflexivity | cbn; lia | | | |].
      * unfold nat_text. splits; [discriminate | repeat constructor; unfold digit; lia | reflexivity].
      * unfold fixed_text. splits; [reflexivity | repeat constructor; unfold digit; lia | reflexivity].
      * unfold fixed_text. splits; [reflexivity | repeat constructor; unfold digit; lia | reflexivity].
      * right. exists [49; 50]. split; [reflexivity|]. splits; [cbn; lia | cbn; lia | | reflexivity].
        repeat constructor; unfold digit; lia.
    + constructor. cbn. lia.
    + apply (tr_val _ _ CVarString false _ _ _ [104; 105] [2] []).
      * apply te_str. constructor.
      * constructor. cbn. lia.
      * constructor.
Qed.

(** C13: a binary row decodes to the values sent. *)
Theorem C13_binary_rows : forall cols vs pkt tail,
  bin_row (map (fun c => (col_type c, has_flag (col_flags c) UNSIGNED_FLAG)) cols) vs pkt ->
  read_bin_row (pkt ++ tail) cols = Ok vs.
Proof. exact bin_row_ok. Qed.
Print Assumptions C13_binary_rows.

Example C13_case :
  bin_row [(CLong, false); (CShort, true); (CVarString, false)] [VInt (-2); VNull; VBytes [104; 105]]
    [0; 8; 254; 255; 255; 255; 2; 104; 105] /\
  read_bin_row [0; 8; 254; 255; 255; 255; 2; 104; 105]
    [col CLong 0; col CShort 32; col CVarString 0]
    = Ok [VInt (-2); VNull; VBytes [104; 105]].
Proof.
  split; [|vm_compute; reflexivity].
  exists [8], ([254; 255; 255; 255] ++ [2; 104; 105]). splits; [| |reflexivity].
  - unfold null_bits. splits; [reflexivity | repeat constructor; lia |].
    intros i Hi. cbn [length] in Hi.
    destruct i as [|[|[|i]]]; [| | |lia]; cbn; split; intros; congruence.
  - apply (bv_val CLong false _ (VInt (-2)) _ (wire_uint 4 (-2)) [2; 104; 105]); [constructor; auto; lia|].
    apply bv_null. apply (bv_val CVarString false _ (VBytes [104; 105]) [] [2; 104; 105] []).
    + apply (be_str CVarString false [104; 105] [2]); constructor. cbn. lia.
    + constructor.
Qed.

(** C14: as many values as columns. *)
Theorem C14_text_row_length : forall debug f32 f64 pkt cols vs,
  read_text_row debug f32 f64 pkt cols = Ok vs -> List.length vs = List.length cols.
Proof. exact text_row_length. Qed.
Print Assumptions C14_text_row_length.

Theorem C14_binary_row_length : forall pkt cols vs,
  read_bin_row pkt cols = Ok vs -> List.length vs = List.length cols.
Proof. exact bin_row_length. Qed.
Print Assumptions C14_binary_row_length.

Example C14_case :
  read_bin_row [0; 12; 1; 0] [col CLong 0; col CShort 0] = Ok [VNull; VNull] /\
  read_text_row true (fun _ => None) (fun _ => None) [251; 1; 55; 9] [col CLong 0; col CTiny 0]
    = Ok [VNull; VTiny 7].
Proof. split; vm_compute; reflexivity. Qed.

(** C15: no panics on arbitrary bytes, for column types that have a decoder and, in a debug
    build, without time-of-day columns in the text protocol.  What is missing is refuted below. *)
Theorem C15_binary_no_panic_partial : forall pkt cols,
  Forall (fun c => ~ In (col_type c) [CNewDate; CTimestamp2; CDatetime2; CTime2; CTypedArray; CUnknown]) cols ->
  read_bin_row pkt cols <> Panic.
Proof. exact bin_row_no_panic. Qed.
Print Assumptions C15_binary_no_panic_partial.

Theorem C15_text_no_panic_partial : forall debug f32 f64 pkt cols,
  Forall (fun c => ~ In (col_type c) [CNull; CLongBlob; CNewDate; CTimestamp2; CDatetime2; CTime2;
                                      CTypedArray; CUnknown]
                   /\ (debug = false \/ ~ In (col_type c) [CTime; CDatetime; CTimestamp])) cols ->
  read_text_row debug f32 f64 pkt cols <> Panic.
Proof. exact text_row_no_panic. Qed.
Print Assumptions C15_text_no_panic_partial.

(** Panics: a TIMESTAMP2 column in either protocol; a LONG_BLOB column in the text protocol; a
    time with more than six fractional digits in a debug build. *)
Theorem C15_no_panic_refuted :
  (exists pkt cols, read_bin_row pkt cols = Panic) /\
  (exists pkt cols, forall debug f32 f64, read_text_row debug f32 f64 pkt cols = Panic) /\
  (exists pkt, forall f32 f64, read_text_row true f32 f64 pkt [col CTime 0] = Panic).
Proof.
  splits.
  - exists [0; 0; 1], [col CTimestamp2 0]. reflexivity.
  - exists [1; 120], [col CLongBlob 0]. reflexivity.
  - exists ([16] ++ s2l "10:11:12.1234567"). intros. vm_compute. reflexivity.
Qed.
Print Assumptions C15_no_panic_refuted.

Example C15_case :
  read_bin_row [0] [col CLong 0] = Err peof /\
  read_bin_row [0; 0; 5; 1; 2] [col CDatetime 0] = Err peof /\
  read_text_row true (fun _ => None) (fun _ => None) [2; 45; 45] [col CLong 0] = Err (PIo IoInvalidData) /\
  read_text_row false (fun _ => None) (fun _ => None) ([16] ++ s2l "10:11:12.1234567") [col CTime 0]
    = Ok [VTime false 0 10 11 12 0].
Proof. splits; vm_compute; reflexivity. Qed.
