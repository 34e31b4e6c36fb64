(** Proofs about the buffer a packet is read into. *)
From Coq Require Import ZArith List Bool Lia.
From Verif Require Import Base BaseFacts Types BufMut Framing Memory Spec_Wire ParseBuf_proofs Framing_proofs.
Import ListNotations.
Open Scope Z_scope.

Lemma header_len : forall s meta s1, bytes_ok (s_in s) -> read_exact 4 s = (Ok meta, s1) ->
  0 <= read_u32 (takeZ 3 meta) < 2 ^ 24 /\ lenZ (s_in s) = 4 + lenZ (s_in s1).
Proof.
  intros s meta s1 Hb E. apply read_exact_inv in E as (Hin & Hm & _); [|lia].
  destruct (list4 meta Hm) as (a & b & c & d & ->). rewrite Hin in Hb. apply bytes_ok_app in Hb as (Hb & _).
  assert (H3 : bytes_ok [a; b; c]).
  { change [a; b; c; d] with ([a; b; c] ++ [d]) in Hb. apply bytes_ok_app in Hb. tauto. }
  change (takeZ 3 [a; b; c; d]) with [a; b; c]. unfold read_u32. pose proof (le_val_range [a; b; c] H3) as H. split; [exact H|].
  rewrite Hin, lenZ_app, Hm. reflexivity.
Qed.

Lemma resizes_bound : forall fuel seq dst s left m, bytes_ok (s_in s) -> In (left, m) (resizes fuel seq dst s) ->
  0 <= left /\ m + 4 <= lenZ dst + (lenZ (s_in s) - left) + (2 ^ 24 - 1).
Proof.
  induction fuel as [|fuel IH]; intros seq dst s left m Hb H; [destruct H|]. cbn [resizes] in H.
  destruct (read_exact 4 s) as [[meta|e|] s1] eqn:E; [|destruct H|destruct H].
  destruct (header_len s meta s1 Hb E) as (Hn & Hl). destruct (read_u32 (takeZ 3 meta) =? 0); [destruct H|].
  destruct H as [H|H].
  - injection H as <- <-. split; [apply lenZ_nonneg|]. lia.
  - destruct (read_chunk_to_buf dst s) as [[[[dst' sq] last]|e|] s'] eqn:C; [|destruct H|destruct H].
    destruct (negb (seq =? sq)); [destruct H|]. destruct last; [destruct H|].
    apply read_chunk_inv in C as (body & -> & _ & Hin & _ & _); [|exact Hb].
    apply IH in H.
    + rewrite lenZ_app in H. rewrite Hin, !lenZ_app, wire_uint_le, lenZ_le_bytes. change (Z.of_nat 3) with 3. change (lenZ [sq]) with 1. lia.
    + rewrite Hin in Hb. rewrite !bytes_ok_app in Hb. tauto.
Qed.

Lemma resizes_result : forall fuel seq dst s p seq' s', bytes_ok (s_in s) ->
  read_packet_to_buf fuel seq dst s = ((Ok p, seq'), s') ->
  (p = dst /\ resizes fuel seq dst s = []) \/
  exists l left, resizes fuel seq dst s = l ++ [(left, lenZ p)] /\ Forall (fun x => snd x <= lenZ p) l.
Proof.
  induction fuel as [|fuel IH]; intros seq dst s p seq' s' Hb H; [discriminate|]. cbn [read_packet_to_buf] in H. cbn [resizes].
  destruct (read_chunk_to_buf dst s) as [[[[dst' sq] last]|e|] s1] eqn:C; try discriminate.
  destruct (read_exact 4 s) as [[meta|e|] s2] eqn:E.
  2,3: unfold read_chunk_to_buf, iobind in C; rewrite E in C; discriminate.
  assert (K : (read_u32 (takeZ 3 meta) =? 0) = true /\ dst' = dst /\ last = true \/
    (read_u32 (takeZ 3 meta) =? 0) = false /\ lenZ dst' = lenZ dst + read_u32 (takeZ 3 meta)).
  { unfold read_chunk_to_buf, iobind in C. rewrite E in C. destruct (read_u32 (takeZ 3 meta) =? 0) eqn:Z0.
    - injection C as <- _ <- _. auto.
    - right. split; [reflexivity|]. destruct (read_exact _ s2) as [[body|e|] s3] eqn:E2; try discriminate. injection C as <- _ _ _.
      destruct (header_len s meta s2 Hb E) as (Hn & _). apply read_exact_inv in E2 as (_ & L & _); [|lia]. rewrite lenZ_app. lia. }
  assert (B1 : bytes_ok (s_in s1)).
  { apply read_chunk_inv in C as (body & _ & _ & Hin & _); [|exact Hb]. rewrite Hin in Hb. rewrite !bytes_ok_app in Hb. tauto. }
  destruct (negb (seq =? sq)); [discriminate|]. destruct K as [(-> & -> & ->)|(-> & L)].
  - injection H as <- _ _. auto.
  - right. destruct last.
    + injection H as <- _ _. exists [], (lenZ (s_in s2)). rewrite L. split; [reflexivity|constructor].
    + pose proof H as H'. apply IH in H as [(-> & ->)|(l & left & -> & F)]; [| |exact B1].
      * exists [], (lenZ (s_in s2)). rewrite L. split; [reflexivity|constructor].
      * exists ((lenZ (s_in s2), lenZ dst + read_u32 (takeZ 3 meta)) :: l), left. split; [reflexivity|]. constructor; [|exact F].
        cbn [snd]. rewrite <- L.
        assert (G : forall fu q d st r q' st', read_packet_to_buf fu q d st = ((Ok r, q'), st') -> bytes_ok (s_in st) -> lenZ d <= lenZ r).
        { clear. induction fu as [|fu IH]; intros q d st r q' st' H B; [discriminate|]. cbn [read_packet_to_buf] in H.
          destruct (read_chunk_to_buf d st) as [[[[d' sq] la]|e|] s1] eqn:C; try discriminate.
          apply read_chunk_inv in C as (body & -> & _ & Hin & _ & _); [|exact B].
          assert (B1 : bytes_ok (s_in s1)) by (rewrite Hin in B; rewrite !bytes_ok_app in B; tauto).
          destruct (negb (q =? sq)); [discriminate|]. destruct la.
          - injection H as <- _ _. rewrite lenZ_app. pose proof (lenZ_nonneg _ body). lia.
          - apply IH in H; [|exact B1]. rewrite lenZ_app in H. pose proof (lenZ_nonneg _ body). lia. }
        eapply G; eassumption.
Qed.

Lemma resizes_received : forall fuel seq dst s left m, bytes_ok (s_in s) -> In (left, m) (resizes fuel seq dst s) ->
  4 <= lenZ (s_in s) - left.
Proof.
  induction fuel as [|fuel IH]; intros seq dst s left m Hb H; [destruct H|]. cbn [resizes] in H.
  destruct (read_exact 4 s) as [[meta|e|] s1] eqn:E; [|destruct H|destruct H].
  destruct (header_len s meta s1 Hb E) as (Hn & Hl). destruct (read_u32 (takeZ 3 meta) =? 0); [destruct H|].
  destruct H as [H|H].
  - injection H as <- _. lia.
  - destruct (read_chunk_to_buf dst s) as [[[[dst' sq] last]|e|] s'] eqn:C; [|destruct H|destruct H].
    destruct (negb (seq =? sq)); [destruct H|]. destruct last; [destruct H|].
    apply read_chunk_inv in C as (body & -> & _ & Hin & _ & _); [|exact Hb].
    apply IH in H.
    + rewrite Hin, !lenZ_app. pose proof (lenZ_nonneg _ (wire_uint 3 (lenZ body))). pose proof (lenZ_nonneg _ body). pose proof (lenZ_nonneg _ [sq]). lia.
    + rewrite Hin in Hb. rewrite !bytes_ok_app in Hb. tauto.
Qed.
