(** Properties C01-C04: packet framing. *)
From Coq Require Import ZArith List.
From Verif Require Import Base BaseFacts Types Spec_Wire Framing Framing_proofs.
Import ListNotations.
Open Scope Z_scope.

(** C01: what is written is read back, by a reader at the same sequence number; the reader
    ends at the same sequence number and leaves exactly the rest of its input. *)
Theorem C01_framing_round_trip : forall seq b sw, byte_ok seq -> s_budget sw = None ->
  exists w seq' sw',
    write_packet seq b sw = ((Ok tt, seq'), sw') /\
    s_out sw' = s_out sw ++ w /\
    forall sr rest, s_in sr = w ++ rest ->
      read_packet seq sr =
        ((Ok b, seq'), mkStream rest (s_end sr) (s_out sr) (s_budget sr)).
Proof. exact framing_round_trip. Qed.
Print Assumptions C01_framing_round_trip.

Example C01_case :
  write_packet 255 [7; 8; 9] (mkStream [] IoUnexpectedEof [] None)
    = ((Ok tt, 0), mkStream [] IoUnexpectedEof [3; 0; 0; 255; 7; 8; 9] None) /\
  read_packet 255 (mkStream [3; 0; 0; 255; 7; 8; 9; 42] IoUnexpectedEof [] None)
    = ((Ok [7; 8; 9], 0), mkStream [42] IoUnexpectedEof [] None).
Proof. split; vm_compute; reflexivity. Qed.

(** C02: the bytes written are a frame sequence in the sense of Spec_Wire. *)
Theorem C02_frames_follow_rules : forall seq b s, byte_ok seq -> s_budget s = None ->
  exists w seq', frames seq b w seq' /\
    write_packet seq b s = ((Ok tt, seq'), mkStream (s_in s) (s_end s) (s_out s ++ w) None).
Proof. exact write_follows_rules. Qed.
Print Assumptions C02_frames_follow_rules.

(** The frame sequence determines payload, next number and end of packet. *)
Theorem C02_frames_unambiguous : forall seq p1 w q1, frames seq p1 w q1 -> byte_ok seq ->
  forall p2 q2 r1 r2 w2, frames seq p2 w2 q2 -> w ++ r1 = w2 ++ r2 -> p1 = p2 /\ q1 = q2 /\ r1 = r2.
Proof. exact frames_payload_unique. Qed.
Print Assumptions C02_frames_unambiguous.

Example C02_case : frames 4 [1; 2] [2; 0; 0; 4; 1; 2] 5.
Proof. apply (frames_last 4 [1; 2]). reflexivity. Qed.

(** C03: a packet is accepted exactly if the input starts with a correctly numbered frame
    sequence carrying it. *)
Theorem C03_accepted_iff_in_order : forall seq s p seq' s', byte_ok seq -> bytes_ok (s_in s) ->
  (read_packet seq s = ((Ok p, seq'), s') <->
   exists w, frames seq p w seq' /\ s_in s = w ++ s_in s' /\
     s' = mkStream (s_in s') (s_end s) (s_out s) (s_budget s)).
Proof. exact read_packet_iff. Qed.
Print Assumptions C03_accepted_iff_in_order.

(** ... and a frame with another number gives the out-of-sync error. *)
Theorem C03_misnumbered_rejected : forall seq w s rest, byte_ok seq -> misnumbered seq w ->
  s_in s = w ++ rest ->
  exists q s', read_packet seq s = ((Err (EProtocol POutOfSync), q), s').
Proof. exact read_misnumbered_packet. Qed.
Print Assumptions C03_misnumbered_rejected.

(** Reading never panics. *)
Theorem C03_read_no_panic : forall seq s, fst (fst (read_packet seq s)) <> Panic.
Proof. exact read_packet_no_panic. Qed.
Print Assumptions C03_read_no_panic.

Example C03_case :
  misnumbered 3 [1; 0; 0; 4; 9] /\
  read_packet 3 (mkStream [1; 0; 0; 4; 9] IoUnexpectedEof [] None)
    = ((Err (EProtocol POutOfSync), 3), mkStream [] IoUnexpectedEof [] None).
Proof.
  split; [|vm_compute; reflexivity].
  apply (misnumbered_here 3 4 [9]); [reflexivity|discriminate].
Qed.

(** C04: with room for [n] more bytes, the peer gets the first [n] bytes of the encoding. *)
Theorem C04_failing_write_prefix : forall seq b s n, byte_ok seq -> s_budget s = Some n -> 0 <= n ->
  exists w seq', frames seq b w seq' /\
    (lenZ w <= n -> exists s', write_packet seq b s = ((Ok tt, seq'), s') /\ s_out s' = s_out s ++ w) /\
    (n < lenZ w -> exists q s', write_packet seq b s = ((Err (EProtocol (PIo IoOther)), q), s') /\
       s_out s' = s_out s ++ takeZ n w).
Proof. exact failing_write_prefix. Qed.
Print Assumptions C04_failing_write_prefix.

Example C04_case :
  write_packet 0 [7; 8; 9] (mkStream [] IoUnexpectedEof [] (Some 5))
    = ((Err (EProtocol (PIo IoOther)), 0), mkStream [] IoUnexpectedEof [3; 0; 0; 0; 7] (Some 0)).
Proof. vm_compute; reflexivity. Qed.
