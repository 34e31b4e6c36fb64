(** C89: how long reading takes. *)
From Coq Require Import ZArith List Bool Lia.
From Verif Require Import Base BaseFacts Types BufMut Framing Timed Spec_Wire ParseBuf_proofs Framing_proofs Timed_proofs.
Import ListNotations.
Open Scope Z_scope.

(** C89, what holds: reading a packet ends within twice the time-out, and twice more for every
    full frame (16777219 bytes on the wire) that the packet continues after.  Missing: a bound on a
    whole operation, see [C89_operation_refuted]. *)
Theorem C89_packet_partial : forall T seq s r q s', 0 <= T -> bytes_ok (map fst (t_in s)) ->
  read_packet_timed T seq s = ((r, q), s') ->
  r <> Panic /\ t_now s <= t_now s' <= t_now s + 2 * T * (1 + (lenZ (t_in s) - lenZ (t_in s')) / 16777219).
Proof.
  intros T seq s r q s' HT B E. destruct (packet_sim T seq s r q s' HT B E) as (_ & N & P & _).
  split; [exact P|]. exact N.
Qed.
Print Assumptions C89_packet_partial.

(** C89, for a whole answer: k packets take no longer than 2 k time-outs, and two more for every
    16777219 bytes. *)
Theorem C89_answer_partial : forall T k seq s r q s', 0 <= T -> bytes_ok (map fst (t_in s)) ->
  read_packets_timed T k seq s = ((r, q), s') ->
  r <> Panic /\
  t_now s <= t_now s' <= t_now s + 2 * T * (Z.of_nat k + (lenZ (t_in s) - lenZ (t_in s')) / 16777219).
Proof.
  intros T k. induction k as [|k IH]; intros seq s r q s' HT B E; cbn [read_packets_timed] in E.
  - injection E as <- <- <-. split; [discriminate|]. rewrite Z.sub_diag. change (0 / 16777219) with 0. lia.
  - destruct (read_packet_timed T seq s) as ((r1 & q1) & s1) eqn:E1.
    destruct (packet_sim T seq s r1 q1 s1 HT B E1) as (_ & _ & _ & used & U & _).
    destruct (C89_packet_partial T seq s r1 q1 s1 HT B E1) as (P1 & N1).
    assert (B1 : bytes_ok (map fst (t_in s1))) by (rewrite U, map_app in B; now apply Forall_app in B).
    assert (D1 : 0 <= lenZ (t_in s) - lenZ (t_in s1)).
    { rewrite U at 1. unfold lenZ. rewrite app_length. lia. }
    assert (Q1 : 0 <= (lenZ (t_in s) - lenZ (t_in s1)) / 16777219) by (apply Z.div_pos; lia).
    assert (Stop : forall x : Z, t_now s <= t_now s1 <= t_now s + 2 * T * (1 + x) -> 0 <= x ->
      t_now s <= t_now s1 <= t_now s + 2 * T * (Z.of_nat (S k) + x)).
    { intros x Hx Hp. split; [lia|]. transitivity (t_now s + 2 * T * (1 + x)); [lia|].
      apply Zplus_le_compat_l, Z.mul_le_mono_nonneg_l; lia. }
    destruct r1 as [p|e|].
    + destruct (read_packets_timed T k q1 s1) as ((r2 & q2) & s2) eqn:E2.
      destruct (IH q1 s1 r2 q2 s2 HT B1 E2) as (P2 & N2).
      set (a := lenZ (t_in s) - lenZ (t_in s1)) in *. set (b := lenZ (t_in s1) - lenZ (t_in s2)) in *.
      assert (Sum : a / 16777219 + b / 16777219 <= (lenZ (t_in s) - lenZ (t_in s2)) / 16777219).
      { replace (lenZ (t_in s) - lenZ (t_in s2)) with (a + b) by (unfold a, b; lia). clearbody a b. clear. lia. }
      assert (G : t_now s <= t_now s2 <= t_now s + 2 * T * (Z.of_nat (S k) + (lenZ (t_in s) - lenZ (t_in s2)) / 16777219)).
      { split; [lia|]. transitivity (t_now s + 2 * T * (1 + a / 16777219) + 2 * T * (Z.of_nat k + b / 16777219)); [lia|].
        rewrite <- Z.add_assoc, <- Z.mul_add_distr_l. apply Zplus_le_compat_l, Z.mul_le_mono_nonneg_l; lia. }
      destruct r2; injection E as <- <- <-; (split; [congruence|exact G]).
    + injection E as <- <- <-. split; [discriminate|]. now apply Stop.
    + congruence.
Qed.
Print Assumptions C89_answer_partial.

(** C89: a packet that has arrived completely before the time-out is read, as soon as its last
    byte is there. *)
Theorem C89_in_time : forall T seq p w q s used rest, 0 <= T -> byte_ok seq -> frames seq p w q ->
  t_in s = used ++ rest -> map fst used = w -> Forall (fun x => snd x <= t_now s + T) used ->
  exists now, read_packet_timed T seq s = ((Ok p, q), mkTimed now rest (t_fail s)) /\
    t_now s <= now <= t_now s + T /\ Forall (fun x => snd x <= now) used /\
    (now = t_now s \/ In now (map snd used)).
Proof.
  intros T seq p w q s used rest HT Hs Hf Hin Hw F. exists (last_time (t_now s) used).
  split; [now apply (packet_in_time T seq p w q)|]. split; [split; [apply last_time_ge|apply last_time_le; [lia|exact F]]|].
  clear. generalize (t_now s). induction used as [|(x & t) l IH]; intros now; [split; [constructor|now left]|].
  unfold last_time in *. cbn [map snd fold_left]. destruct (IH (Z.max now t)) as (A & B). split.
  - constructor; [|exact A]. cbn [snd]. pose proof (last_time_ge l (Z.max now t)) as H. unfold last_time in H. lia.
  - destruct B as [->|B]; [|right; now right]. destruct (Z.max_spec now t) as [(_ & ->)|(_ & ->)]; [right; now left|now left].
Qed.
Print Assumptions C89_in_time.

(** C89: if the server is silent, the time-out is reported exactly when it is over. *)
Theorem C89_silent : forall T seq s, 0 <= T -> lenZ (within (t_now s + T) (t_in s)) < 4 ->
  (forall t k, t_fail s = Some (t, k) -> t_now s + T < t) ->
  exists s', read_packet_timed T seq s = ((Err (EProtocol (PIo IoTimedOut)), seq), s') /\ t_now s' = t_now s + T.
Proof.
  intros T seq s HT L Hf. unfold read_packet_timed. cbn [read_packet_loop]. unfold read_chunk_timed, read_exact_timed.
  replace (4 <=? lenZ (within (t_now s + T) (t_in s))) with false by lia.
  destruct (t_fail s) as [(t & k)|].
  - specialize (Hf t k eq_refl). replace (t <=? t_now s + T) with false by lia. cbn [andb]. eexists. split; reflexivity.
  - eexists. split; reflexivity.
Qed.
Print Assumptions C89_silent.

(** C89: time changes nothing else.  Whatever the schedule, reading a packet is reading it from the
    bytes that have arrived by then, on a transport that fails after them with a time-out (or as the
    real one does); the bytes that come later are left for the next read. *)
Theorem C89_untimed : forall T seq s r q s', 0 <= T -> bytes_ok (map fst (t_in s)) ->
  read_packet_timed T seq s = ((r, q), s') ->
  exists used, t_in s = used ++ t_in s' /\
  ((forall rest e out b, read_packet seq (mkStream (map fst used ++ rest) e out b) = ((r, q), mkStream rest e out b)) \/
   (exists k, r = Err (EProtocol (PIo k)) /\ (k = IoTimedOut \/ exists t, t_fail s = Some (t, k)) /\
      forall out b, read_packet seq (mkStream (map fst used) k out b) = ((r, q), mkStream [] k out b))).
Proof. intros T seq s r q s' HT B E. now destruct (packet_sim T seq s r q s' HT B E) as (_ & _ & _ & H). Qed.
Print Assumptions C89_untimed.

(** A server that sends packets of one byte, each header and each body at the last moment. *)
Fixpoint slow_packets (T : Z) (k : nat) (seq now : Z) : list (Z * Z) :=
  match k with
  | O => []
  | S k' =>
    map (fun b => (b, now + T)) [1; 0; 0; seq] ++ [(7, now + 2 * T)] ++ slow_packets T k' ((seq + 1) mod 256) (now + 2 * T)
  end.

Lemma slow_packet : forall T seq now rest, 0 <= T ->
  read_packet_timed T seq (mkTimed now (map (fun b => (b, now + T)) [1; 0; 0; seq] ++ [(7, now + 2 * T)] ++ rest) None) =
  ((Ok [7], (seq + 1) mod 256), mkTimed (now + 2 * T) rest None).
Proof.
  intros T seq now rest HT. unfold read_packet_timed. cbn [read_packet_loop t_in length]. unfold read_chunk_timed.
  change 4 with (lenZ (map (fun b => (b, now + T)) [1; 0; 0; seq])) at 1.
  rewrite (exact_in_time T _ _ ([(7, now + 2 * T)] ++ rest)); [|reflexivity|cbn [t_now map]; repeat constructor; cbn [snd]; lia].
  cbn zeta. cbn [map fst]. change (read_u32 (takeZ 3 [1; 0; 0; seq])) with 1. cbn [nth t_now t_fail].
  change (1 =? 0) with false. cbn match.
  replace (last_time now [(1, now + T); (0, now + T); (0, now + T); (seq, now + T)]) with (now + T) by (unfold last_time; cbn [map snd fold_left]; lia).
  change 1 with (lenZ [(7, now + 2 * T)]) at 1.
  rewrite (exact_in_time T _ _ rest); [|reflexivity|cbn [t_now map]; repeat constructor; cbn [snd]; lia].
  cbn [map fst app t_now t_fail]. change (lenZ [7] mod MAX_PAYLOAD_LEN =? 0) with false. rewrite Z.eqb_refl. cbn [negb].
  replace (last_time (now + T) [(7, now + 2 * T)]) with (now + 2 * T) by (unfold last_time; cbn [map snd fold_left]; lia). reflexivity.
Qed.

Lemma slow_packets_read : forall T k seq now, 0 <= T ->
  exists q, read_packets_timed T k seq (mkTimed now (slow_packets T k seq now) None) =
    ((Ok (repeat [7] k), q), mkTimed (now + 2 * T * Z.of_nat k) [] None).
Proof.
  intros T k. induction k as [|k IH]; intros seq now HT.
  - exists seq. cbn [read_packets_timed slow_packets repeat]. do 2 f_equal. lia.
  - cbn [read_packets_timed slow_packets]. rewrite slow_packet by exact HT.
    destruct (IH ((seq + 1) mod 256) (now + 2 * T) HT) as (q & ->). exists q. cbn [repeat]. do 2 f_equal. lia.
Qed.

(** C89 is false of operations: the time-out starts anew for every header and every body, so with
    any time-out a result set of k rows can take 2 k times as long without an error. *)
Theorem C89_operation_refuted : forall T k seq, 0 <= T -> exists s q s',
  t_now s = 0 /\ read_packets_timed T k seq s = ((Ok (repeat [7] k), q), s') /\ t_now s' = 2 * T * Z.of_nat k.
Proof.
  intros T k seq HT. destruct (slow_packets_read T k seq 0 HT) as (q & E). eexists. exists q. eexists.
  split; [|split; [exact E|reflexivity]]. reflexivity.
Qed.
Print Assumptions C89_operation_refuted.

(** A packet that arrives in time, and one whose last byte is late. *)
Example C89_case :
  let on_time := [(1, 3); (0, 3); (0, 3); (5, 3); (42, 9)] in
  frames 5 [42] (map fst on_time) 6 /\
  read_packet_timed 10 5 (mkTimed 0 on_time None) = ((Ok [42], 6), mkTimed 9 [] None) /\
  read_packet_timed 10 5 (mkTimed 0 [(1, 3); (0, 3); (0, 3); (5, 3); (42, 14)] None) =
    ((Err (EProtocol (PIo IoTimedOut)), 5), mkTimed 13 [(42, 14)] None) /\
  lenZ (within 10 [(1, 3); (0, 12)]) = 1.
Proof.
  cbn zeta. split; [|repeat split; vm_compute; reflexivity].
  change (map fst [(1, 3); (0, 3); (0, 3); (5, 3); (42, 9)]) with (wire_uint 3 (Z.of_nat (length [42])) ++ [5] ++ [42]).
  apply (frames_last 5). vm_compute. reflexivity.
Qed.
