(** Proofs about packet framing. *)
From Coq Require Import ZArith List Bool Lia.
From Verif Require Import Base BaseFacts Types BufMut Framing Spec_Wire ParseBuf_proofs.
Import ListNotations.
Open Scope Z_scope.

Lemma lor_shift : forall a b n, 0 <= n -> 0 <= a < 2 ^ n -> Z.lor a (Z.shiftl b n) = a + b * 2 ^ n.
Proof.
  intros a b n Hn Ha. rewrite <- Z.shiftl_mul_pow2 by lia.
  assert (Hz : Z.land a (Z.shiftl b n) = 0).
  { apply Z.bits_inj'. intros i Hi. rewrite Z.land_spec, Z.bits_0.
    destruct (Z.lt_ge_cases i n).
    - rewrite (Z.shiftl_spec b n i) by lia. rewrite (Z.testbit_neg_r b (i - n)) by lia.
      apply andb_false_r.
    - destruct (Z.eq_dec a 0) as [->|Hnz]; [now rewrite Z.bits_0|].
      rewrite (Z.bits_above_log2 a i); auto; try lia.
      apply Z.log2_lt_pow2; try lia.
      apply Z.lt_le_trans with (2 ^ n); try lia. apply Z.pow_le_mono_r; lia. }
  rewrite <- Z.lxor_lor by auto. now rewrite Z.add_nocarry_lxor.
Qed.

Lemma le_bytes_app : forall j k n, le_bytes (j + k) n = le_bytes j n ++ le_bytes k (n / 256 ^ Z.of_nat j).
Proof.
  induction j as [|j IH]; intros k n.
  - cbn [Nat.add le_bytes app]. change (256 ^ Z.of_nat 0) with 1. now rewrite Z.div_1_r.
  - cbn [Nat.add le_bytes app]. f_equal. rewrite IH. f_equal. f_equal.
    rewrite pow256_S. pose proof (pow256_pos j). now rewrite Z.div_div by lia.
Qed.

Lemma le_bytes_mod : forall k n m, (n - m) mod 256 ^ Z.of_nat k = 0 -> le_bytes k n = le_bytes k m.
Proof.
  induction k as [|k IH]; intros n m H; cbn [le_bytes]; auto.
  rewrite pow256_S in H. pose proof (pow256_pos k) as Hp.
  apply Z.mod_divide in H; [|lia]. destruct H as [q Hq].
  replace n with (m + (q * 256 ^ Z.of_nat k) * 256) by lia.
  rewrite Z.mod_add, Z.div_add by lia. f_equal. apply IH.
  replace (m / 256 + q * 256 ^ Z.of_nat k - m / 256) with (q * 256 ^ Z.of_nat k) by lia.
  apply Z.mod_mul. lia.
Qed.

Lemma frame_header_spec : forall len seq, 0 <= len < 2 ^ 24 -> byte_ok seq ->
  frame_header len seq = wire_uint 3 len ++ [seq].
Proof.
  intros len seq Hl Hs. unfold frame_header, byte_ok in *. rewrite lor_shift by lia.
  rewrite wire_uint_le. change 4%nat with (3 + 1)%nat. rewrite le_bytes_app. f_equal.
  - apply le_bytes_mod. change (256 ^ Z.of_nat 3) with (2 ^ 24).
    replace (len + seq * 2 ^ 24 - len) with (seq * 2 ^ 24) by lia. apply Z.mod_mul. lia.
  - cbn [le_bytes]. change (256 ^ Z.of_nat 3) with (2 ^ 24). rewrite Z.div_add by lia.
    rewrite Z.div_small by lia. cbn [Z.add]. now rewrite Z.mod_small by lia.
Qed.

Lemma empty_header_spec : forall seq, byte_ok seq ->
  le_bytes 4 (Z.shiftl seq 24) = wire_uint 3 0 ++ [seq].
Proof.
  intros seq H. rewrite <- frame_header_spec by (auto; lia).
  unfold frame_header. now rewrite Z.lor_0_l.
Qed.

Lemma next_seq_spec : forall seq, byte_ok seq -> (seq + 1) mod 256 = next_seq seq.
Proof.
  intros seq H. unfold byte_ok in H. unfold next_seq. destruct (seq =? 255) eqn:E.
  - replace seq with 255 by lia. reflexivity.
  - apply Z.mod_small. lia.
Qed.

Lemma next_seq_ok : forall seq, byte_ok seq -> byte_ok (next_seq seq).
Proof. intros seq H. unfold byte_ok, next_seq in *. destruct (seq =? 255) eqn:E; lia. Qed.

(** Writing two pieces is writing their concatenation. *)
Lemma write_all_app : forall a b s, (write_all a ;;; write_all b) s = write_all (a ++ b) s.
Proof.
  intros a b s. unfold iobind, write_all. destruct (s_budget s) as [n|] eqn:E.
  - rewrite lenZ_app. pose proof (lenZ_nonneg _ b).
    destruct (lenZ a <=? n) eqn:E1.
    + cbn [s_budget s_in s_end s_out].
      destruct (lenZ b <=? n - lenZ a) eqn:E2.
      * replace (lenZ a + lenZ b <=? n) with true by lia.
        rewrite app_assoc. do 3 f_equal. lia.
      * replace (lenZ a + lenZ b <=? n) with false by lia.
        rewrite takeZ_app_ge by lia. now rewrite app_assoc.
    + replace (lenZ a + lenZ b <=? n) with false by lia.
      now rewrite takeZ_app_le by lia.
  - cbn. now rewrite app_assoc.
Qed.

(** [writes w seq' f]: running [f] has exactly the effect of writing [w]. *)
Definition writes (w : bytes) (seq' : Z) (f : stream -> (res error unit * Z) * stream) : Prop :=
  forall s, match write_all w s with
            | (Ok _, s') => f s = ((Ok tt, seq'), s')
            | (Err e, s') => exists q, f s = ((Err e, q), s')
            | (Panic, _) => False
            end.

Lemma write_all_no_panic : forall w s s', write_all w s <> (Panic, s').
Proof.
  intros w s s' H. unfold write_all in H. destruct (s_budget s); [destruct (_ <=? _)|]; discriminate.
Qed.

Lemma write_all_nil : forall s, s_budget s = None \/ (exists n, s_budget s = Some n /\ 0 <= n) ->
  write_all [] s = (Ok tt, s).
Proof.
  intros [i e o b] H. unfold write_all. cbn in *. destruct b as [n|].
  - destruct H as [H|(m & H & Hm)]; [discriminate|]. injection H as <-.
    rewrite lenZ_nil. replace (0 <=? n) with true by lia.
    rewrite app_nil_r, Z.sub_0_r. reflexivity.
  - now rewrite app_nil_r.
Qed.

Definition budget_ok (s : stream) : Prop := s_budget s = None \/ (exists n, s_budget s = Some n /\ 0 <= n).

Lemma write_all_budget : forall w s r s', budget_ok s -> write_all w s = (r, s') -> budget_ok s'.
Proof.
  intros w [i e o b] r s' H E. unfold write_all in E. cbn in *. destruct b as [n|].
  - destruct H as [H|(m & H & Hm)]; [discriminate|]. injection H as <-.
    destruct (lenZ w <=? n) eqn:F; injection E as <- <-; right; eexists; split; cbn; eauto; lia.
  - injection E as <- <-. now left.
Qed.

Lemma mod_minus : forall a m, (a - m) mod m = a mod m.
Proof.
  intros a m. rewrite <- (Z_mod_plus_full (a - m) 1 m). f_equal. ring.
Qed.

Lemma MAX_eq : MAX_PAYLOAD_LEN = 2 ^ 24 - 1.
Proof. reflexivity. Qed.

Lemma MAX_val : MAX_PAYLOAD_LEN = 16777215.
Proof. reflexivity. Qed.

Local Opaque MAX_PAYLOAD_LEN.

(** The loop writes some byte string [w]: a complete frame sequence, or (when the length is a
    multiple of the maximum) one that lacks its final frame. *)
Lemma write_chunks_spec : forall fuel seq b,
  (length b < fuel)%nat -> byte_ok seq ->
  exists w seq', byte_ok seq' /\
    (forall s, budget_ok s ->
       match write_all w s with
       | (Ok _, s') => write_chunks fuel seq b s = ((Ok tt, seq'), s')
       | (Err e, s') => exists q, write_chunks fuel seq b s = ((Err e, q), s')
       | (Panic, _) => False
       end) /\
    (lenZ b mod MAX_PAYLOAD_LEN <> 0 -> frames seq b w seq') /\
    (lenZ b mod MAX_PAYLOAD_LEN = 0 ->
       forall tl seq'', frames seq' [] tl seq'' -> frames seq b (w ++ tl) seq'').
Proof.
  induction fuel as [|fuel IH]; intros seq b Hf Hs; [lia|].
  destruct b as [|x b0].
  { exists [], seq. split; [auto|]. split; [|split].
    - intros s Hb. rewrite (write_all_nil s Hb). reflexivity.
    - intro H. exfalso. apply H. reflexivity.
    - intros _ tl seq'' H. exact H. }
  set (b := x :: b0) in *.
  assert (Hb1 : 1 <= lenZ b) by (unfold b; rewrite lenZ_cons; pose proof (lenZ_nonneg _ b0); lia).
  set (c := Z.min (lenZ b) MAX_PAYLOAD_LEN).
  assert (Hc : 1 <= c <= lenZ b /\ c <= MAX_PAYLOAD_LEN)
    by (unfold c; pose proof MAX_val; lia).
  assert (Hd : lenZ (dropZ c b) = lenZ b - c) by (rewrite lenZ_dropZ; lia).
  destruct (IH (next_seq seq) (dropZ c b)) as (w & seq' & Hq & Hw & Hne & Heq).
  { unfold lenZ in Hd, Hc. lia. }
  { now apply next_seq_ok. }
  assert (Hlt : lenZ (takeZ c b) = c) by (apply lenZ_takeZ_le; lia).
  exists (frame_header c seq ++ takeZ c b ++ w), seq'. split; [auto|]. split; [|split].
  - intros s Hbud. cbn [write_chunks]. unfold b at 2. fold b. fold c.
    rewrite write_all_app. rewrite (app_assoc (frame_header c seq)).
    rewrite <- write_all_app. unfold iobind at 1.
    destruct (write_all (frame_header c seq ++ takeZ c b) s) as [[u|e|] s1] eqn:E.
    + rewrite (next_seq_spec seq Hs). apply Hw. eapply write_all_budget; eauto.
    + eexists. reflexivity.
    + exact (write_all_no_panic _ _ _ E).
  - intros Hmod. rewrite frame_header_spec by (auto; pose proof MAX_val; lia).
    destruct (Z.lt_ge_cases (lenZ b) MAX_PAYLOAD_LEN) as [Hlt'|Hge].
    + assert (c = lenZ b) by (unfold c; lia).
      assert (Hdn : dropZ c b = []) by (apply lenZ_0; lia).
      assert (Htk : takeZ c b = b) by (apply takeZ_all; lia).
      assert (w = [] /\ seq' = next_seq seq) as [-> ->].
      { specialize (Hw (mkStream [] IoOther [] None) (or_introl eq_refl)).
        rewrite Hdn in Hw. unfold write_all in Hw. cbn [s_budget s_in s_end s_out] in Hw.
        destruct fuel as [|fuel]; [unfold b in Hf; cbn in Hf; lia|].
        cbn [write_chunks app] in Hw. injection Hw as -> <-. auto. }
      rewrite app_nil_r, Htk, H. rewrite <- app_assoc. apply frames_last.
      pose proof MAX_val. unfold lenZ in *. lia.
    + assert (Hcm : c = MAX_PAYLOAD_LEN) by (unfold c; lia).
      rewrite <- (take_drop _ c b) at 1. rewrite Hcm in *. rewrite <- app_assoc.
      rewrite MAX_eq in *.
      apply frames_full.
      * unfold lenZ in Hlt. rewrite Hlt. reflexivity.
      * apply Hne. rewrite Hd. intro F. apply Hmod.
        rewrite mod_minus in F. exact F.
  - intros Hmod tl seq'' Htl.
    rewrite frame_header_spec by (auto; pose proof MAX_val; lia).
    assert (Hge : MAX_PAYLOAD_LEN <= lenZ b).
    { destruct (Z.lt_ge_cases (lenZ b) MAX_PAYLOAD_LEN); auto.
      rewrite Z.mod_small in Hmod; lia. }
    assert (Hcm : c = MAX_PAYLOAD_LEN) by (unfold c; lia).
    rewrite <- (take_drop _ c b) at 1. rewrite Hcm in *. rewrite <- !app_assoc.
    rewrite MAX_eq in *.
    apply frames_full.
    + unfold lenZ in Hlt. rewrite Hlt. reflexivity.
    + apply Heq; auto. rewrite Hd.
      rewrite mod_minus. exact Hmod.
Qed.

Lemma write_packet_spec : forall seq b, byte_ok seq ->
  exists w seq', frames seq b w seq' /\
    forall s, budget_ok s ->
       match write_all w s with
       | (Ok _, s') => write_packet seq b s = ((Ok tt, seq'), s')
       | (Err e, s') => exists q, write_packet seq b s = ((Err e, q), s')
       | (Panic, _) => False
       end.
Proof.
  intros seq b Hs.
  destruct (write_chunks_spec (S (length b)) seq b) as (w & seq' & Hq & Hw & Hne & Heq); auto.
  destruct (lenZ b mod MAX_PAYLOAD_LEN =? 0) eqn:E.
  - apply Z.eqb_eq in E.
    exists (w ++ (wire_uint 3 0 ++ [seq'])), (next_seq seq'). split.
    + apply Heq; auto.
      pose proof (frames_last seq' []) as H. cbn [length] in H.
      cbn [app] in H. apply H. change (Z.of_nat 0) with 0. lia.
    + intros s Hb. specialize (Hw s Hb). rewrite <- write_all_app. unfold iobind.
      unfold write_packet. rewrite E. cbv beta zeta. change (0 =? 0) with true.
      destruct (write_all w s) as [[u|e|] s1] eqn:F.
      * rewrite Hw. rewrite empty_header_spec by auto.
        destruct (write_all (wire_uint 3 0 ++ [seq']) s1) as [[u'|e|] s2] eqn:G.
        -- now rewrite next_seq_spec.
        -- eexists. reflexivity.
        -- exact (write_all_no_panic _ _ _ G).
      * destruct Hw as [q ->]. eexists. reflexivity.
      * exact Hw.
  - apply Z.eqb_neq in E. exists w, seq'. split; auto.
    intros s Hb. specialize (Hw s Hb). unfold write_packet.
    replace (lenZ b mod MAX_PAYLOAD_LEN =? 0) with false by (symmetry; now apply Z.eqb_neq).
    destruct (write_all w s) as [[u|e|] s1] eqn:F.
    + now rewrite Hw.
    + destruct Hw as [q ->]. eexists. reflexivity.
    + exact Hw.
Qed.

(** Reading. *)
Lemma read_exact_app : forall n x s r, s_in s = x ++ r -> lenZ x = n ->
  read_exact n s = (Ok x, mkStream r (s_end s) (s_out s) (s_budget s)).
Proof.
  intros n x s r Hin Hn. unfold read_exact. rewrite Hin, lenZ_app.
  pose proof (lenZ_nonneg _ r). replace (lenZ x + lenZ r <? n) with false by lia.
  now rewrite takeZ_app_exact, dropZ_app_exact.
Qed.

Definition with_in (s : stream) (i : bytes) : stream :=
  mkStream i (s_end s) (s_out s) (s_budget s).

Lemma with_in_in : forall s i, s_in (with_in s i) = i.
Proof. reflexivity. Qed.
Lemma with_in_with_in : forall s i j, with_in (with_in s i) j = with_in s j.
Proof. reflexivity. Qed.

Lemma read_chunk_frame : forall body sq dst s r,
  lenZ body < 2 ^ 24 ->
  s_in s = wire_uint 3 (lenZ body) ++ [sq] ++ body ++ r ->
  read_chunk_to_buf dst s =
    (Ok (dst ++ body, sq, (lenZ body =? 0) || negb (lenZ (dst ++ body) mod MAX_PAYLOAD_LEN =? 0)),
     with_in s r).
Proof.
  intros body sq dst s r Hl Hin. unfold read_chunk_to_buf, iobind.
  rewrite app_assoc in Hin.
  assert (Hh : lenZ (wire_uint 3 (lenZ body) ++ [sq]) = 4)
    by (rewrite lenZ_app, wire_uint_le, lenZ_le_bytes; reflexivity).
  rewrite (read_exact_app 4 _ s _ Hin Hh).
  rewrite takeZ_app_exact by (rewrite wire_uint_le, lenZ_le_bytes; reflexivity).
  replace (nth 3 (wire_uint 3 (lenZ body) ++ [sq]) 0) with sq by reflexivity.
  unfold read_u32. rewrite wire_uint_le, le_val_bytes.
  2:{ unfold unsigned_ok. change (256 ^ Z.of_nat 3) with (2 ^ 24). pose proof (lenZ_nonneg _ body). lia. }
  destruct (lenZ body =? 0) eqn:E.
  - apply Z.eqb_eq in E. apply lenZ_0 in E. subst body.
    cbn [orb]. rewrite app_nil_r. reflexivity.
  - cbn [orb]. rewrite (read_exact_app _ body _ r) by reflexivity. reflexivity.
Qed.

Lemma lenZ_app_mod : forall (a b : bytes) m, lenZ a mod m = 0 -> lenZ (a ++ b) mod m = lenZ b mod m.
Proof.
  intros a b m H. rewrite lenZ_app.
  destruct (Z.eq_dec m 0) as [->|Hm]; [rewrite !Zmod_0_r in *; lia|].
  rewrite <- Z.add_mod_idemp_l by auto. now rewrite H.
Qed.

Lemma MAX_pos : 0 < MAX_PAYLOAD_LEN.
Proof. rewrite MAX_val. lia. Qed.

Lemma last_short : forall (dst body : bytes), lenZ dst mod MAX_PAYLOAD_LEN = 0 ->
  lenZ body < MAX_PAYLOAD_LEN ->
  (lenZ body =? 0) || negb (lenZ (dst ++ body) mod MAX_PAYLOAD_LEN =? 0) = true.
Proof.
  intros dst body Hd Hb. rewrite lenZ_app_mod by auto. pose proof (lenZ_nonneg _ body).
  rewrite Z.mod_small by lia. destruct (lenZ body =? 0); reflexivity.
Qed.

Lemma last_full : forall (dst body : bytes), lenZ dst mod MAX_PAYLOAD_LEN = 0 ->
  lenZ body = MAX_PAYLOAD_LEN ->
  (lenZ body =? 0) || negb (lenZ (dst ++ body) mod MAX_PAYLOAD_LEN =? 0) = false /\
  lenZ (dst ++ body) mod MAX_PAYLOAD_LEN = 0.
Proof.
  intros dst body Hd Hb. rewrite lenZ_app_mod by auto. rewrite Hb.
  pose proof MAX_pos. rewrite Z_mod_same_full. split; [|reflexivity].
  replace (MAX_PAYLOAD_LEN =? 0) with false by (symmetry; apply Z.eqb_neq; lia). reflexivity.
Qed.

Lemma frames_seq_ok : forall seq p w seq', frames seq p w seq' -> byte_ok seq -> byte_ok seq'.
Proof. induction 1; intros; auto using next_seq_ok. Qed.

Lemma frames_wire_length : forall seq p w seq', frames seq p w seq' -> (4 <= length w)%nat.
Proof.
  intros seq p w seq' H. destruct H; rewrite !app_length, wire_uint_le, le_bytes_length; cbn; lia.
Qed.

Lemma read_frames : forall seq p w seq', frames seq p w seq' -> byte_ok seq ->
  forall fuel dst s r,
    (length w < fuel)%nat -> lenZ dst mod MAX_PAYLOAD_LEN = 0 -> s_in s = w ++ r ->
    read_packet_to_buf fuel seq dst s = ((Ok (dst ++ p), seq'), with_in s r).
Proof.
  induction 1 as [seq body Hl | seq body rest wire seq' Hl Hf IH]; intros Hs fuel dst s r Hfu Hd Hin.
  - destruct fuel as [|fuel]; [lia|]. cbn [read_packet_to_buf].
    rewrite <- !app_assoc in Hin.
    rewrite (read_chunk_frame body seq dst s r).
    2:{ unfold lenZ. lia. }
    2:{ exact Hin. }
    rewrite Z.eqb_refl. cbn [negb].
    rewrite last_short by (auto; rewrite MAX_val; unfold lenZ; lia).
    now rewrite next_seq_spec.
  - assert (Hb : lenZ body = MAX_PAYLOAD_LEN) by (rewrite MAX_val; unfold lenZ; lia).
    destruct fuel as [|fuel]; [lia|]. cbn [read_packet_to_buf].
    rewrite <- !app_assoc in Hin.
    rewrite (read_chunk_frame body seq dst s (wire ++ r)).
    2:{ unfold lenZ. lia. }
    2:{ rewrite Hb, MAX_eq. exact Hin. }
    rewrite Z.eqb_refl. cbn [negb].
    destruct (last_full dst body Hd Hb) as [-> Hd'].
    rewrite next_seq_spec by auto.
    rewrite (IH (next_seq_ok seq Hs) fuel (dst ++ body) (with_in s (wire ++ r)) r); auto.
    + now rewrite <- app_assoc, with_in_with_in.
    + rewrite !app_length in Hfu. lia.
Qed.

Lemma read_packet_frames : forall seq p w seq' s r, frames seq p w seq' -> byte_ok seq ->
  s_in s = w ++ r -> read_packet seq s = ((Ok p, seq'), with_in s r).
Proof.
  intros seq p w seq' s r Hf Hs Hin. unfold read_packet.
  rewrite (read_frames seq p w seq' Hf Hs _ [] s r); auto.
  rewrite Hin, app_length. lia.
Qed.

Lemma read_misnumbered : forall seq w, misnumbered seq w -> byte_ok seq ->
  forall fuel dst s r,
    (length w < fuel)%nat -> lenZ dst mod MAX_PAYLOAD_LEN = 0 -> s_in s = w ++ r ->
    exists q s', read_packet_to_buf fuel seq dst s = ((Err (EProtocol POutOfSync), q), s').
Proof.
  induction 1 as [seq sq body Hl Hne | seq body wire Hl Hm IH]; intros Hs fuel dst s r Hfu Hd Hin.
  - destruct fuel as [|fuel]; [lia|]. cbn [read_packet_to_buf].
    rewrite <- !app_assoc in Hin.
    rewrite (read_chunk_frame body sq dst s r).
    2:{ unfold lenZ. lia. }
    2:{ exact Hin. }
    replace (seq =? sq) with false by (symmetry; apply Z.eqb_neq; auto).
    cbn [negb]. eauto.
  - assert (Hb : lenZ body = MAX_PAYLOAD_LEN) by (rewrite MAX_val; unfold lenZ; lia).
    destruct fuel as [|fuel]; [lia|]. cbn [read_packet_to_buf].
    rewrite <- !app_assoc in Hin.
    rewrite (read_chunk_frame body seq dst s (wire ++ r)).
    2:{ unfold lenZ. lia. }
    2:{ rewrite Hb, MAX_eq. exact Hin. }
    rewrite Z.eqb_refl. cbn [negb].
    destruct (last_full dst body Hd Hb) as [-> Hd'].
    rewrite next_seq_spec by auto.
    eapply (IH (next_seq_ok seq Hs) fuel (dst ++ body) (with_in s (wire ++ r)) r); auto.
    rewrite !app_length in Hfu. lia.
Qed.

Lemma read_exact_inv : forall n s x s', read_exact n s = (Ok x, s') -> 0 <= n ->
  s_in s = x ++ s_in s' /\ lenZ x = n /\ s' = with_in s (s_in s').
Proof.
  intros n s x s' H Hn. unfold read_exact in H.
  destruct (lenZ (s_in s) <? n) eqn:E; [discriminate|]. injection H as <- <-.
  cbn [s_in]. rewrite take_drop. repeat split. apply lenZ_takeZ_le. lia.
Qed.

Lemma list4 : forall l : bytes, lenZ l = 4 -> exists a b c d, l = [a; b; c; d].
Proof.
  intros l H. unfold lenZ in H.
  destruct l as [|a [|b [|c [|d [|e l]]]]]; cbn [length] in H; try lia.
  eauto.
Qed.

Lemma read_chunk_inv : forall dst s dst' sq last s', bytes_ok (s_in s) ->
  read_chunk_to_buf dst s = (Ok (dst', sq, last), s') ->
  exists body, dst' = dst ++ body /\ lenZ body < 2 ^ 24 /\
    s_in s = wire_uint 3 (lenZ body) ++ [sq] ++ body ++ s_in s' /\
    s' = with_in s (s_in s') /\
    last = (lenZ body =? 0) || negb (lenZ (dst ++ body) mod MAX_PAYLOAD_LEN =? 0).
Proof.
  intros dst s dst' sq last s' Hb H. unfold read_chunk_to_buf, iobind in H.
  destruct (read_exact 4 s) as [[m|e|] s1] eqn:E; try discriminate.
  apply read_exact_inv in E as (Hin & Hm & Hs1); [|lia].
  destruct (list4 m Hm) as (a & b & c & d & ->).
  rewrite Hin in Hb. apply bytes_ok_app in Hb as [Hb4 Hb1].
  assert (Habc : bytes_ok [a; b; c]).
  { change [a; b; c; d] with ([a; b; c] ++ [d]) in Hb4. apply bytes_ok_app in Hb4. tauto. }
  change (takeZ 3 [a; b; c; d]) with [a; b; c] in H.
  change (nth 3 [a; b; c; d] 0) with d in H.
  unfold read_u32 in H.
  set (n := le_val [a; b; c]) in *.
  assert (Hn : 0 <= n < 2 ^ 24).
  { pose proof (le_val_range [a; b; c] Habc). exact H0. }
  assert (Hw : wire_uint 3 n = [a; b; c]).
  { rewrite wire_uint_le. exact (le_bytes_val [a; b; c] Habc). }
  destruct (n =? 0) eqn:En.
  - unfold ioret in H. injection H as <- <- <- <-. apply Z.eqb_eq in En.
    exists []. rewrite app_nil_r, lenZ_nil. rewrite En in Hw. rewrite Hw.
    repeat split; auto.
  - destruct (read_exact n s1) as [[body|e|] s2] eqn:E2; try discriminate.
    apply read_exact_inv in E2 as (Hin2 & Hm2 & Hs2); [|lia].
    unfold ioret in H. injection H as <- <- <- <-.
    exists body. rewrite Hm2, En, Hw. repeat split; auto.
    + lia.
    + rewrite Hin, Hin2. reflexivity.
    + rewrite Hs2, Hs1. reflexivity.
Qed.

Lemma read_packet_inv : forall fuel seq dst s p seq' s',
  byte_ok seq -> bytes_ok (s_in s) -> lenZ dst mod MAX_PAYLOAD_LEN = 0 ->
  read_packet_to_buf fuel seq dst s = ((Ok p, seq'), s') ->
  exists q w, p = dst ++ q /\ frames seq q w seq' /\ s_in s = w ++ s_in s' /\
    s' = with_in s (s_in s').
Proof.
  induction fuel as [|fuel IH]; intros seq dst s p seq' s' Hs Hb Hd H; [discriminate|].
  cbn [read_packet_to_buf] in H.
  destruct (read_chunk_to_buf dst s) as [[[[dst' sq] last]|e|] s1] eqn:E; try discriminate.
  apply read_chunk_inv in E as (body & -> & Hl & Hin & Hs1 & ->); auto.
  destruct (seq =? sq) eqn:Eq; cbn [negb] in H; [|discriminate].
  apply Z.eqb_eq in Eq. subst sq. rewrite next_seq_spec in H by auto.
  assert (Hb1 : bytes_ok (s_in s1)).
  { rewrite Hin in Hb. rewrite !bytes_ok_app in Hb. tauto. }
  destruct (Z.lt_ge_cases (lenZ body) MAX_PAYLOAD_LEN) as [Hlt|Hge].
  - rewrite last_short in H by auto. injection H as <- <- <-.
    exists body, (wire_uint 3 (lenZ body) ++ [seq] ++ body).
    splits; [reflexivity| | |exact Hs1].
    + apply frames_last. rewrite MAX_val in Hlt. unfold lenZ in Hlt. lia.
    + rewrite Hin. now rewrite <- !app_assoc.
  - assert (Hbm : lenZ body = MAX_PAYLOAD_LEN) by (rewrite MAX_eq in *; lia).
    destruct (last_full dst body Hd Hbm) as [Hlast Hd']. rewrite Hlast in H.
    apply IH in H as (q & w & -> & Hf & Hin1 & Hs'); auto using next_seq_ok.
    exists (body ++ q), (wire_uint 3 (2 ^ 24 - 1) ++ [seq] ++ body ++ w).
    rewrite app_assoc. splits; [reflexivity| | |].
    + apply frames_full; [|exact Hf]. unfold lenZ in Hbm. rewrite Hbm. apply MAX_eq.
    + rewrite Hin, Hin1, Hbm, MAX_eq. now rewrite <- !app_assoc.
    + rewrite Hs', Hs1. reflexivity.
Qed.

Lemma read_packet_iff : forall seq s p seq' s', byte_ok seq -> bytes_ok (s_in s) ->
  (read_packet seq s = ((Ok p, seq'), s') <->
   exists w, frames seq p w seq' /\ s_in s = w ++ s_in s' /\ s' = with_in s (s_in s')).
Proof.
  intros seq s p seq' s' Hs Hb. split.
  - intro H. unfold read_packet in H.
    apply read_packet_inv in H as (q & w & -> & Hf & Hin & Hs'); auto.
    exists w. auto.
  - intros (w & Hf & Hin & Hs'). rewrite (read_packet_frames seq p w seq' s (s_in s')); auto.
    now rewrite <- Hs'.
Qed.

(** The fuel given by [read_packet] is never exhausted. *)
Lemma read_chunk_consumes : forall dst s r s', read_chunk_to_buf dst s = (Ok r, s') ->
  (length (s_in s') < length (s_in s))%nat.
Proof.
  intros dst s [[dst' sq] last] s' H. unfold read_chunk_to_buf, iobind in H.
  destruct (read_exact 4 s) as [[m|e|] s1] eqn:E; try discriminate.
  apply read_exact_inv in E as (Hin & Hm & Hs1); [|lia].
  assert (Hl : (length (s_in s1) < length (s_in s))%nat).
  { rewrite Hin, app_length. unfold lenZ in Hm. lia. }
  destruct (_ =? 0) eqn:En.
  - unfold ioret in H. injection H as <- <- <- <-. exact Hl.
  - unfold read_exact in H. destruct (lenZ (s_in s1) <? _) eqn:E2; [discriminate|].
    unfold ioret in H. injection H as <- <- <- <-. cbn [s_in].
    rewrite dropZ_skipn, skipn_length. lia.
Qed.

Lemma read_chunk_no_panic : forall dst s s', read_chunk_to_buf dst s <> (Panic, s').
Proof.
  intros dst s s' H. unfold read_chunk_to_buf, iobind in H.
  unfold read_exact at 1 in H. destruct (_ <? 4); [discriminate|].
  destruct (_ =? 0); [discriminate|].
  unfold read_exact in H. destruct (_ <? _); discriminate.
Qed.

Lemma read_packet_fuel : forall fuel seq dst s, (length (s_in s) < fuel)%nat ->
  fst (fst (read_packet_to_buf fuel seq dst s)) <> Panic.
Proof.
  induction fuel as [|fuel IH]; intros seq dst s H; [lia|].
  cbn [read_packet_to_buf].
  destruct (read_chunk_to_buf dst s) as [[[[dst' sq] last]|e|] s1] eqn:E; cbn [fst].
  - apply read_chunk_consumes in E.
    destruct (negb (seq =? sq)); [discriminate|].
    destruct last; [discriminate|]. apply IH. lia.
  - discriminate.
  - exfalso. exact (read_chunk_no_panic _ _ _ E).
Qed.

Lemma read_packet_no_panic : forall seq s, fst (fst (read_packet seq s)) <> Panic.
Proof. intros; apply read_packet_fuel; lia. Qed.

(** The transport state only loses input. *)
Lemma read_packet_rest : forall fuel seq dst s r s',
  read_packet_to_buf fuel seq dst s = (r, s') ->
  s_out s' = s_out s /\ s_end s' = s_end s /\ s_budget s' = s_budget s.
Proof.
  assert (Hre : forall n s r s', read_exact n s = (r, s') ->
    s_out s' = s_out s /\ s_end s' = s_end s /\ s_budget s' = s_budget s).
  { intros n s r s' H. unfold read_exact in H. destruct (_ <? _); injection H as <- <-; auto. }
  assert (Hrc : forall dst s r s', read_chunk_to_buf dst s = (r, s') ->
    s_out s' = s_out s /\ s_end s' = s_end s /\ s_budget s' = s_budget s).
  { intros dst s r s' H. unfold read_chunk_to_buf, iobind in H.
    destruct (read_exact 4 s) as [[m|e|] s1] eqn:E; apply Hre in E; try (injection H as <- <-; auto).
    destruct (_ =? 0); [injection H as <- <-; auto|].
    destruct (read_exact _ s1) as [[m'|e|] s2] eqn:E2; apply Hre in E2; injection H as <- <-;
      intuition congruence. }
  induction fuel as [|fuel IH]; intros seq dst s r s' H; cbn [read_packet_to_buf] in H.
  - injection H as <- <-. auto.
  - destruct (read_chunk_to_buf dst s) as [[[[dst' sq] last]|e|] s1] eqn:E; apply Hrc in E.
    + destruct (negb (seq =? sq)); [injection H as <- <-; auto|].
      destruct last; [injection H as <- <-; auto|].
      apply IH in H. intuition congruence.
    + injection H as <- <-. auto.
    + injection H as <- <-. auto.
Qed.

(** Statements used by the property files. *)
Lemma framing_round_trip : forall seq b sw, byte_ok seq -> s_budget sw = None ->
  exists w seq' sw',
    write_packet seq b sw = ((Ok tt, seq'), sw') /\
    s_out sw' = s_out sw ++ w /\
    forall sr rest, s_in sr = w ++ rest ->
      read_packet seq sr =
        ((Ok b, seq'), mkStream rest (s_end sr) (s_out sr) (s_budget sr)).
Proof.
  intros seq b sw Hs Hb.
  destruct (write_packet_spec seq b Hs) as (w & seq' & Hf & Hw).
  assert (Hbo : budget_ok sw) by (left; auto).
  specialize (Hw sw Hbo). unfold write_all in Hw. rewrite Hb in Hw.
  exists w, seq'. eexists. splits; [exact Hw|reflexivity|].
  intros sr rest Hin. exact (read_packet_frames _ _ _ _ _ _ Hf Hs Hin).
Qed.

Lemma write_follows_rules : forall seq b s, byte_ok seq -> s_budget s = None ->
  exists w seq', frames seq b w seq' /\
    write_packet seq b s = ((Ok tt, seq'), mkStream (s_in s) (s_end s) (s_out s ++ w) None).
Proof.
  intros seq b s Hs Hb.
  destruct (write_packet_spec seq b Hs) as (w & seq' & Hf & Hw).
  assert (Hbo : budget_ok s) by (left; auto).
  specialize (Hw s Hbo). unfold write_all in Hw. rewrite Hb in Hw.
  exists w, seq'. split; auto.
Qed.

Lemma frames_payload_unique : forall seq p1 w q1, frames seq p1 w q1 -> byte_ok seq ->
  forall p2 q2 r1 r2 w2, frames seq p2 w2 q2 -> w ++ r1 = w2 ++ r2 -> p1 = p2 /\ q1 = q2 /\ r1 = r2.
Proof.
  intros seq p1 w q1 H1 Hs p2 q2 r1 r2 w2 H2 E.
  set (s := mkStream (w ++ r1) IoUnexpectedEof [] None).
  pose proof (read_packet_frames seq p1 w q1 s r1 H1 Hs eq_refl) as A.
  pose proof (read_packet_frames seq p2 w2 q2 s r2 H2 Hs E) as B.
  rewrite A in B. injection B; auto.
Qed.

Lemma read_packet_errors : forall fuel seq dst s e q s',
  read_packet_to_buf fuel seq dst s = ((Err e, q), s') ->
  e = EProtocol POutOfSync \/ e = EProtocol (PIo (s_end s)).
Proof.
  assert (Hre : forall n s e s', read_exact n s = (Err e, s') -> e = EProtocol (PIo (s_end s))).
  { intros n s e s' H. unfold read_exact in H. destruct (_ <? _); [|discriminate]. now injection H. }
  assert (Hok : forall n s x s', read_exact n s = (Ok x, s') -> s_end s' = s_end s).
  { intros n s x s' H. unfold read_exact in H. destruct (_ <? _); [discriminate|]. now injection H as <- <-. }
  assert (Hrc : forall dst s e s', read_chunk_to_buf dst s = (Err e, s') -> e = EProtocol (PIo (s_end s))).
  { intros dst s e s' H. unfold read_chunk_to_buf, iobind in H.
    destruct (read_exact 4 s) as [[m|e'|] s1] eqn:E; try discriminate.
    - destruct (_ =? 0); [discriminate|].
      destruct (read_exact _ s1) as [[m'|e'|] s2] eqn:E2; try discriminate.
      injection H as <- <-. rewrite <- (Hok _ _ _ _ E). eauto.
    - injection H as <- <-. eauto. }
  assert (Hrk : forall dst s x s', read_chunk_to_buf dst s = (Ok x, s') -> s_end s' = s_end s).
  { intros dst s x s' H. unfold read_chunk_to_buf, iobind in H.
    destruct (read_exact 4 s) as [[m|e'|] s1] eqn:E; try discriminate.
    destruct (_ =? 0); [injection H as <- <-; eauto|].
    destruct (read_exact _ s1) as [[m'|e'|] s2] eqn:E2; try discriminate.
    injection H as <- <-. rewrite <- (Hok _ _ _ _ E). eauto. }
  induction fuel as [|fuel IH]; intros seq dst s e q s' H; cbn [read_packet_to_buf] in H; [discriminate|].
  destruct (read_chunk_to_buf dst s) as [[[[dst' sq] last]|e'|] s1] eqn:E; try discriminate.
  - destruct (negb (seq =? sq)); [injection H as <- <- <-; auto|].
    destruct last; [discriminate|]. apply IH in H. rewrite (Hrk _ _ _ _ E) in H. exact H.
  - injection H as <- <- <-. right. eauto.
Qed.

Lemma read_misnumbered_packet : forall seq w s rest, byte_ok seq -> misnumbered seq w ->
  s_in s = w ++ rest ->
  exists q s', read_packet seq s = ((Err (EProtocol POutOfSync), q), s').
Proof.
  intros seq w s rest Hs Hm Hin. unfold read_packet.
  eapply read_misnumbered; eauto. rewrite Hin, app_length. lia.
Qed.

Lemma failing_write_prefix : forall seq b s n, byte_ok seq -> s_budget s = Some n -> 0 <= n ->
  exists w seq', frames seq b w seq' /\
    (lenZ w <= n -> exists s', write_packet seq b s = ((Ok tt, seq'), s') /\ s_out s' = s_out s ++ w) /\
    (n < lenZ w -> exists q s', write_packet seq b s = ((Err (EProtocol (PIo IoOther)), q), s') /\
       s_out s' = s_out s ++ takeZ n w).
Proof.
  intros seq b s n Hs Hb Hn.
  destruct (write_packet_spec seq b Hs) as (w & seq' & Hf & Hw).
  assert (Hbo : budget_ok s) by (right; eauto).
  specialize (Hw s Hbo). unfold write_all in Hw. rewrite Hb in Hw.
  exists w, seq'. splits; auto; intro Hc.
  - replace (lenZ w <=? n) with true in Hw by lia. eexists. split; [exact Hw|reflexivity].
  - replace (lenZ w <=? n) with false in Hw by lia. destruct Hw as [q Hw].
    eexists q, _. split; [exact Hw|reflexivity].
Qed.
