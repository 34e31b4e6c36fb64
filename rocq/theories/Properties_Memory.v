(** C116: the memory a packet takes while it is read. *)
From Coq Require Import ZArith List Bool Lia.
From Verif Require Import Base BaseFacts Types BufMut Framing Handshake Conn Memory Spec_Wire Framing_proofs Memory_proofs.
Import ListNotations.
Open Scope Z_scope.

(** Whenever the buffer is made longer, it is at most one frame longer than what has been received. *)
Theorem C116_bounded_partial : forall seq s left len, bytes_ok (s_in s) -> In (left, len) (packet_resizes seq s) ->
  let received := Z.of_nat (length (s_in s)) - left in
  4 <= received <= Z.of_nat (length (s_in s)) /\ len <= (received - 4) + (2 ^ 24 - 1).
Proof.
  intros seq s left len Hb H received. unfold packet_resizes in H. pose proof (resizes_bound _ _ _ _ _ _ Hb H) as (H1 & H2).
  change (Z.of_nat (length (s_in s))) with (lenZ (s_in s)) in *. change (lenZ (@nil Z)) with 0 in H2.
  pose proof (resizes_received _ _ _ _ _ _ Hb H). subst received. lia.
Qed.
Print Assumptions C116_bounded_partial.

(** A packet that has been read never took more than its length. *)
Theorem C116_result : forall seq s p seq' s', bytes_ok (s_in s) -> read_packet seq s = ((Ok p, seq'), s') ->
  (p = [] /\ packet_resizes seq s = []) \/
  exists l left, packet_resizes seq s = l ++ [(left, Z.of_nat (length p))] /\
    forall left' len, In (left', len) l -> len <= Z.of_nat (length p).
Proof.
  intros seq s p seq' s' Hb H. apply resizes_result in H as [H|(l & left & E & F)]; [auto| |exact Hb]. right.
  exists l, left. split; [exact E|]. intros left' len I. rewrite Forall_forall in F. exact (F _ I).
Qed.
Print Assumptions C116_result.

Example C116_case :
  packet_resizes 0 (mkStream [255; 255; 255; 0; 7; 8] IoUnexpectedEof [] None) = [(2, 2 ^ 24 - 1)] /\
  packet_resizes 0 (mkStream [2; 0; 0; 0; 7; 8; 9] IoUnexpectedEof [] None) = [(3, 2)] /\
  read_packet 0 (mkStream [2; 0; 0; 0; 7; 8; 9] IoUnexpectedEof [] None) =
    ((Ok [7; 8], 1), mkStream [9] IoUnexpectedEof [] None).
Proof. vm_compute. auto. Qed.

(** The limit the connection has been given is not looked at: however low it is, and however much
    longer than that, a packet is read. *)
Theorem C116_limit_refuted : forall limit more, 0 <= limit -> 0 <= more -> exists c p,
  d_max_allowed_packet (c_data c) = limit /\ fst (conn_read c) = Ok p /\ limit + more < Z.of_nat (length p).
Proof.
  intros limit more H1 H2. set (p := repeat 0 (Z.to_nat (limit + more + 1))).
  destruct (write_follows_rules 0 p (mkStream [] IoUnexpectedEof [] None)) as (w & q & F & _); [unfold byte_ok; lia|reflexivity|].
  exists (mkConn (mkStream w IoUnexpectedEof [] None) 0 (mkData 1 false (8, 0, 36) 0 [] None PNative false limit) false), p.
  splits; [reflexivity| |].
  - unfold conn_read. cbn [c_seq c_stream].
    rewrite (read_packet_frames 0 p w q (mkStream w IoUnexpectedEof [] None) [] F); [reflexivity|unfold byte_ok; lia|].
    now rewrite app_nil_r.
  - unfold p. rewrite repeat_length. lia.
Qed.
Print Assumptions C116_limit_refuted.
