(** Property C29, for texts that run to the end of the packet - the documented form on every
    connection of this crate, which never asks for SESSION_TRACK. *)
From Coq Require Import String ZArith List Bool Lia.
From Verif Require Import Base BaseFacts Types Utf8 ParseBuf Spec_Wire ParseBuf_proofs Rows_proofs
  Conversion Spec_Conv Conversion_proofs Packets Spec_Packets Packets_proofs LongEnd_proofs OkText_proofs.
Import ListNotations.
Open Scope Z_scope.

(** Whatever the text is, the numbers are read right, but the text is never: what is read is the one
    that was sent only if there is none. *)
Theorem C29_text_refuted : forall caps rows id status warnings msg st pkt,
  ok_layout (Z.testbit caps SESSION_TRACK_BIT) InfoEof rows id status warnings msg st pkt ->
  exists x, read_ok pkt caps = Ok x /\ ok_affected_rows x = rows /\ ok_last_insert_id x = id /\
    (forall i, Z.testbit (ok_status x) i = Z.testbit status i && negb (i =? 2)) /\ ok_warnings x = warnings /\
    (ok_message x = nonempty msg <-> msg = []).
Proof.
  intros caps rows id status warnings msg st pkt H.
  destruct (read_ok_text caps _ _ _ _ _ _ _ _ H) as (x & E & A & B & S & W & M).
  exists x. split; [exact E|]. split; [exact A|]. split; [exact B|]. split; [|split; [exact W | exact M]].
  intros i. rewrite S. destruct H as (w & (a & b & c & _ & _ & Hs & _) & _). now apply status_truncate_bit.
Qed.
Print Assumptions C29_text_refuted.

(** A text that begins with its own length (line feed, and ten characters): the first is left out. *)
Example C29_text_case :
  let msg := 10 :: s2l "ten chars!" in
  ok_layout (Z.testbit 0 SESSION_TRACK_BIT) InfoEof 1 0 2 0 msg [] ([0; 1; 0; 2; 0; 0; 0] ++ msg) /\
  read_ok ([0; 1; 0; 2; 0; 0; 0] ++ msg) 0 = Ok (mkOk 1 0 2 0 (Some (s2l "ten chars!")) None).
Proof.
  cbv zeta. split; [|vm_compute; reflexivity].
  exists ([1; 0; 2; 0; 0; 0] ++ 10 :: s2l "ten chars!"). split; [|reflexivity].
  exists [1], [0], (10 :: s2l "ten chars!"). split; [apply lenenc_1; lia|]. split; [apply lenenc_1; lia|].
  split; [lia|]. split; [lia|]. split; [|reflexivity].
  constructor. apply utf8_text_ascii. vm_compute. repeat constructor; discriminate.
Qed.
