(** C97: what is written reaches the server before its answer is awaited. *)
From Coq Require Import ZArith List Bool Lia.
From Verif Require Import Base BaseFacts Types BufMut Framing Framing_proofs Conn_proofs Spec_Wire Flush Spec_Flush Flush_proofs.
Import ListNotations.
Open Scope Z_scope.

(** C97: the code is that of C01 to C04, there on a stream that passes on what it is given. *)
Theorem C97_same_code : forall seq b s, write_packet_on write_all seq b s = write_packet seq b s.
Proof. exact write_packet_same. Qed.
Print Assumptions C97_same_code.

(** C97: on a stream with a buffer, the frames of the packet are handed over completely and in
    order; nothing remains in the buffer exactly if the last piece fills it. *)
Theorem C97_handed_over : forall seq b s, byte_ok seq -> exists w q s',
  write_packet_on bf_write seq b s = ((Ok tt, q), s') /\ frames seq b w q /\
  bf_got s' ++ bf_buf s' = bf_got s ++ bf_buf s ++ w /\ (exists got, bf_got s' = bf_got s ++ got) /\
  (bf_buf s' = [] <-> bf_cap s <= last_piece (lenZ b)).
Proof.
  intros seq b s Hs. destruct (write_buffered seq b s Hs) as (w & q & s' & A & B & C & D & _ & _ & E).
  exists w, q, s'. auto.
Qed.
Print Assumptions C97_handed_over.

(** C97: without a buffer (or one that every last piece fills), the peer has the whole packet, and
    whatever it answers is read. *)
Theorem C97_answered_partial : forall peer b p w wp q qp rest s, bf_buf s = [] -> bf_cap s <= last_piece (lenZ b) ->
  0 <= bf_read s -> frames 0 b w q -> frames q p wp qp ->
  dropZ (bf_read s) (peer (bf_got s ++ w)) = wp ++ rest ->
  bf_exchange peer b s = ((Ok p, qp), mkBuffered (bf_cap s) [] (bf_got s ++ w) (bf_read s + lenZ wp)).
Proof.
  intros peer b p w wp q qp rest s Hb Hc Hr F Fp E. unfold bf_exchange.
  destruct (write_buffered 0 b s) as (w' & q' & s' & W & F' & G & _ & Cp & Rd & Bf); [unfold byte_ok; lia|]. rewrite W.
  apply Bf in Hc. rewrite Hc, Hb in G. rewrite app_nil_r in G. cbn [app] in G.
  assert (K : w' = w /\ q' = q).
  { destruct (frames_det _ _ _ _ F _ _ F') as (-> & ->). auto. }
  destruct K as (-> & ->).
  rewrite (read_buffered peer q p wp qp rest s'); [|eapply frames_seq_ok; [exact F|unfold byte_ok; lia]|exact Fp|now rewrite Rd, G].
  now rewrite Cp, Rd, Hc, G.
Qed.
Print Assumptions C97_answered_partial.

(** A server that answers a ping. *)
Definition ping_server (got : bytes) : bytes :=
  if list_eqb got [1; 0; 0; 0; 14] then [7; 0; 0; 1; 0; 0; 0; 2; 0; 0; 0] else [].

Example C97_case :
  bf_exchange ping_server [14] (mkBuffered 0 [] [] 0) = ((Ok [0; 0; 0; 2; 0; 0; 0], 2), mkBuffered 0 [] [1; 0; 0; 0; 14] 11).
Proof. vm_compute. reflexivity. Qed.

(** C97 is false in general: with the buffer of [BufStream] the server that would answer never
    receives the command, and the client waits until the time-out. *)
Theorem C97_buffered_refuted : exists peer b p q,
  fst (bf_exchange peer b (mkBuffered 0 [] [] 0)) = (Ok p, q) /\
  exists w, frames 0 b w 1 /\
  bf_exchange peer b (mkBuffered 8192 [] [] 0) = ((Err (EProtocol (PIo IoTimedOut)), 1), mkBuffered 8192 w [] 0).
Proof.
  exists ping_server, [14], [0; 0; 0; 2; 0; 0; 0], 2. split; [vm_compute; reflexivity|].
  exists [1; 0; 0; 0; 14]. split; [apply (frames_last 0 [14]); reflexivity|vm_compute; reflexivity].
Qed.
Print Assumptions C97_buffered_refuted.

(** More generally: if the last piece does not fill the buffer, a server that waits for the whole
    packet is never answered. *)
Theorem C97_stuck : forall peer cap b w q, last_piece (lenZ b) < cap -> frames 0 b w q ->
  (forall got rest, w = got ++ rest -> rest <> [] -> peer got = []) -> exists buf got, buf <> [] /\
  bf_exchange peer b (mkBuffered cap [] [] 0) = ((Err (EProtocol (PIo IoTimedOut)), q), mkBuffered cap buf got 0).
Proof.
  intros peer cap b w q Hc F H. unfold bf_exchange.
  destruct (write_buffered 0 b (mkBuffered cap [] [] 0)) as (w' & q' & s' & W & F' & G & _ & Cp & Rd & Bf); [unfold byte_ok; lia|]. rewrite W.
  destruct (frames_det _ _ _ _ F _ _ F') as (<- & <-). cbn [bf_got bf_buf bf_cap bf_read app] in G, Cp, Rd, Bf.
  assert (Hb : bf_buf s' <> []) by (intros K; apply Bf in K; lia).
  exists (bf_buf s'), (bf_got s'). split; [exact Hb|]. unfold bf_read_packet. rewrite (H _ _ (eq_sym G) Hb), Rd, Cp. reflexivity.
Qed.
Print Assumptions C97_stuck.
