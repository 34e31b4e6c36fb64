(** Property C32, exactly: which documented column definitions are read right. *)
From Coq Require Import String ZArith List Bool Lia.
From Verif Require Import Base BaseFacts Types Utf8 ParseBuf Spec_Wire ParseBuf_proofs Rows_proofs
  Conversion Spec_Conv Conversion_proofs Packets Spec_Packets Packets_proofs LongName_proofs.
Import ListNotations.
Open Scope Z_scope.

(** With a schema name of at most 250 bytes (its length is byte 4 of the packet): a documented
    definition is read as the column it stands for exactly if each of the names has at most 250
    bytes.  Any longer name - an alias may have up to 1024 - makes the packet be refused or be read
    as another column. *)
Theorem C32_exactly_partial : forall c pkt, bytes_ok pkt -> column_layout c pkt -> nth 4 pkt 0 <= 250 ->
  (read_column pkt = Ok c <-> column_layout_by short_name_text c pkt).
Proof.
  intros c pkt Hb Hl Hs. split; [now apply column_read | apply read_column_short].
Qed.
Print Assumptions C32_exactly_partial.

(** An alias of 300 bytes is not refused: the two bytes of its length become part of the name, and
    the bytes behind the first 250 are taken for the name, type and flags of the column in its table. *)
Example C32_exactly_case :
  let alias := repeat 97 250 ++ 44 :: repeat 98 44 ++ 12 :: repeat 98 4 in
  let pkt := [3; 100; 101; 102; 1; 100; 1; 116; 1; 117] ++ wire_lenenc_str alias ++ [1; 111] ++
    [12; 33; 0; 255; 0; 0; 0; 3; 32; 0; 0; 0; 0] in
  column_layout (mkColumn (s2l "o") alias (s2l "u") (s2l "t") CLong 32) pkt /\ nth 4 pkt 0 <= 250 /\
  read_column pkt = Ok (mkColumn (repeat 98 44) ([44; 1] ++ repeat 97 250) (s2l "u") (s2l "t") CDatetime 33).
Proof.
  cbv zeta. split; [|split; [vm_compute; discriminate | vm_compute; reflexivity]].
  assert (A : forall s, forallb (fun c => (0 <=? c) && (c <? 128)) s = true -> name_text s (wire_lenenc_str s)).
  { intros s H. exists s. split; [|reflexivity]. apply utf8_text_ascii. apply Forall_forall. intros c Hc.
    rewrite forallb_forall in H. specialize (H c Hc). lia. }
  exists (s2l "d"), (wire_lenenc_str (s2l "d")), (wire_lenenc_str (s2l "t")), (wire_lenenc_str (s2l "u")),
    (wire_lenenc_str (repeat 97 250 ++ 44 :: repeat 98 44 ++ 12 :: repeat 98 4)), (wire_lenenc_str (s2l "o")), 33, 255, 3, 0, [0; 0].
  cbn [col_table col_org_table col_name col_org_name col_type col_flags].
  splits; try (apply A; vm_compute; reflexivity); try lia; try (vm_compute; reflexivity).
  - vm_compute. auto 10.
Qed.
