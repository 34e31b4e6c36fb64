(** Which packets the client accepts as a greeting, exactly. *)
From Coq Require Import String ZArith List Bool Lia.
From Verif Require Import Base BaseFacts Types Utf8 ParseBuf BufMut Spec_Wire ParseBuf_proofs Rows_proofs Conversion
  Spec_Conv Conversion_proofs Packets Spec_Packets Packets_proofs Scramble Crypt Handshake Spec_Handshake Handshake_proofs.
Import ListNotations.
Open Scope Z_scope.
Open Scope parse_scope.

Lemma plugin_from_inv : forall w p, plugin_from_bytes w = Ok p -> w = plugin_name p ++ [0] \/ w = plugin_name p.
Proof.
  intros w p H.
  assert (S : w = strip_zero w ++ [0] \/ w = strip_zero w).
  { unfold strip_zero. destruct (rev w) as [|x r] eqn:E; [now right|].
    destruct x; [left|now right|now right]. rewrite <- (rev_involutive w), E. reflexivity. }
  assert (P : strip_zero w = plugin_name p).
  { unfold plugin_from_bytes in H. cbv zeta in H.
    destruct (list_eqb _ _) eqn:E1; [injection H as <-; now apply list_eqb_eq in E1|].
    destruct (list_eqb _ (plugin_bytes PNative)) eqn:E2; [injection H as <-; now apply list_eqb_eq in E2|].
    destruct (list_eqb _ (plugin_bytes PSha2)) eqn:E3; [injection H as <-; now apply list_eqb_eq in E3|discriminate]. }
  rewrite P in S. exact S.
Qed.

Lemma nonce_len_read : forall debug len b, 0 <= len < 256 ->
  nonce_rest_len debug len b =
  match second_part debug len with Some n => (Ok n, b) | None => (Panic, b) end.
Proof.
  intros debug len b H. unfold nonce_rest_len, second_part, to_signed. change (256 ^ Z.of_nat 1 / 2) with 128.
  change (256 ^ Z.of_nat 1) with 256. cbv zeta.
  destruct (len <=? 127) eqn:E1.
  - replace (len <? 128) with true by lia. replace (len - 8 <? -128) with false by lia. reflexivity.
  - replace (len <? 128) with false by lia. destruct (len <=? 135) eqn:E2.
    + replace (len - 256 - 8 <? -128) with true by lia. destruct debug; [reflexivity|].
      replace (Z.max 13 (len - 256 - 8 + 256)) with (len - 8) by lia. reflexivity.
    + replace (len - 256 - 8 <? -128) with false by lia. replace (Z.max 13 (len - 256 - 8)) with 13 by lia. reflexivity.
Qed.

Lemma second_part_pos : forall debug len n, second_part debug len = Some n -> 0 <= n.
Proof.
  intros debug len n. unfold second_part. destruct (len <=? 127) eqn:E; [|destruct (len <=? 135); [destruct debug|]];
  intros H; try discriminate; injection H as <-; lia.
Qed.

Lemma eat_null_str_inv : forall b v b', eat_null_str b = (Ok v, b') -> bytes_ok b -> b' <> [] ->
  exists w, b = w ++ [0] ++ b' /\ utf8_text v w /\ ~ In 0 w.
Proof.
  intros b v b' H Hb Hne. destruct (in_dec Z.eq_dec 0 b) as [I|I].
  - destruct (split_nul b I) as (w & r & -> & Hw). exists w.
    unfold eat_null_str in H. pose proof (eat_null_slice_general w r [] Hw) as E. rewrite app_nil_r in E.
    rewrite (pbind_ok _ _ _ _ _ E) in H. apply BaseFacts.bytes_ok_app in Hb as (Bw & _).
    apply from_utf8_inv in H; [|exact Bw]. destruct H as (T & <-). auto.
  - exfalso. unfold eat_null_str in H. apply pbind_inv in H. destruct H as (x & b1 & H & E).
    unfold eat_null_slice in H. rewrite position_none in H by exact I. cbv zeta in H.
    apply pbind_inv in H. destruct H as (y & b2 & H & E2). apply eat_inv in H; [|apply lenZ_nonneg].
    destruct H as (Eb & L). injection E2 as _ <-. unfold plift, from_utf8 in E. destruct (utf8_decode x); [|discriminate].
    injection E as _ <-. apply Hne. rewrite Eb in L. rewrite lenZ_app in L. apply length_zero_iff_nil. unfold lenZ in L. lia.
Qed.

Lemma skip_inv : forall n b u b', skip n b = (Ok u, b') -> 0 <= n <= lenZ b -> exists x, b = x ++ b' /\ lenZ x = n.
Proof.
  intros n b u b' H Hn. unfold skip in H. injection H as _ <-. rewrite Z.min_l by lia. exists (takeZ n b).
  split; [now rewrite take_drop | rewrite lenZ_takeZ; lia].
Qed.

Lemma status_p_inv : forall b s b', status_p b = (Ok s, b') -> bytes_ok b ->
  b = wire_uint 2 s ++ b' /\ known_status s /\ bytes_ok b'.
Proof.
  intros b s b' H Hb. unfold status_p in H. apply pbind_inv in H. destruct H as (x & b1 & H & E).
  apply eat_uint_inv in H; [|exact Hb]. destruct H as (-> & R & B).
  destruct (_ =? _) eqn:F; [|discriminate]. injection E as <- <-. split; [reflexivity|]. split; [|exact B].
  change (256 ^ Z.of_nat 2) with 65536 in R. split; [exact R|]. unfold flag_set. intros T.
  apply Z.eqb_eq in F. pose proof (status_land_bit x 2 R) as K. rewrite F, T in K. discriminate.
Qed.

Lemma halves : forall a b, 0 <= a < 2 ^ 16 -> 0 <= b < 2 ^ 16 ->
  let c := Z.lor a (Z.shiftl b 16) in 0 <= c < 2 ^ 32 /\ c mod 2 ^ 16 = a /\ c / 2 ^ 16 = b.
Proof.
  intros a b Ha Hb. cbv zeta.
  assert (E : Z.lor a (Z.shiftl b 16) = a + b * 2 ^ 16).
  { pose proof (caps_halves (a + b * 2 ^ 16)) as C.
    replace ((a + b * 2 ^ 16) mod 2 ^ 16) with a in C by (rewrite Z.mod_add, Z.mod_small; lia).
    replace ((a + b * 2 ^ 16) / 2 ^ 16) with b in C by (rewrite Z.div_add, Z.div_small; lia).
    apply C. lia. }
  rewrite E. split; [lia|]. split; [rewrite Z.mod_add, Z.mod_small; lia | rewrite Z.div_add, Z.div_small; lia].
Qed.

Lemma loose_read : forall debug id caps status len version part1 part2 plugin pkt,
  loose_greeting debug id caps status len version part1 part2 plugin pkt ->
  exists proto coll, read_handshake debug pkt =
    Ok (mkHandshake proto version id caps coll status len (challenge part1 part2) plugin).
Proof.
  intros debug id caps status len version part1 part2 plugin pkt H.
  destruct H as [proto wv filler coll reserved wp Hpr Hid Hcaps Hl Hc Hs Hv Hz L1 Lr H2 Hp ->].
  exists proto, coll.
  assert (D1 : 0 <= caps mod 2 ^ 16 < 65536) by (apply Z.mod_pos_bound; lia).
  assert (D2 : 0 <= caps / 2 ^ 16 < 65536) by (split; [apply Z.div_pos; lia | apply Z.div_lt_upper_bound; lia]).
  unfold read_handshake, handshake_p.
  rewrite (pbind_ok _ _ _ proto (wv ++ [0] ++ wire_uint 4 id ++ part1 ++ [filler] ++ wire_uint 2 (caps mod 2 ^ 16) ++
    [coll] ++ wire_uint 2 status ++ wire_uint 2 (caps / 2 ^ 16) ++ [len] ++ reserved ++ part2 ++ wp)).
  2:{ rewrite <- (wire_1 proto) by assumption. rewrite wire_uint_le. apply parse_uint_app.
      unfold unsigned_ok. change (256 ^ Z.of_nat 1) with 256. assumption. }
  rewrite (pbind_ok _ _ _ _ _ (eat_null_str_text _ _ _ Hv Hz)).
  assert (L8 : lenZ part1 = 8) by (unfold lenZ; lia). assert (L10 : lenZ reserved = 10) by (unfold lenZ; lia).
  erewrite pbind_ok.
  2:{ apply check_len_ok. rewrite !lenZ_app, !wire_len, !lenZ_cons, !lenZ_nil, L8, L10.
      pose proof (lenZ_nonneg _ part2). pose proof (lenZ_nonneg _ wp). lia. }
  rewrite (pbind_ok _ _ _ _ _ (eat_wire 4 id _ Hid)).
  rewrite (pbind_ok _ _ _ _ _ (eat_app 8 part1 _ L8)).
  rewrite (pbind_ok _ _ _ _ _ (skip_app 1 [filler] _ eq_refl)).
  rewrite (pbind_ok _ _ _ _ _ (eat_wire 2 _ _ D1 : deserialize_lower _ = _)).
  erewrite pbind_ok by (apply eat_u8_cons).
  rewrite (pbind_ok _ _ _ _ _ (status_p_read _ _ Hs)).
  rewrite (pbind_ok _ _ _ _ _ (upper_read _ _ D2)).
  erewrite pbind_ok by (apply eat_u8_cons).
  rewrite (pbind_ok _ _ _ _ _ (skip_app 10 reserved _ L10)).
  cbv zeta. rewrite caps_halves by assumption. rewrite secure_flag, plugin_auth_flag.
  assert (N : (if Z.testbit caps SECURE_CONNECTION_BIT
     then len0 <- nonce_rest_len debug len;; rest <- checked_eat len0;; pret (part1 ++ rest)
     else pret part1) (part2 ++ wp) = (Ok (part1 ++ part2), wp)).
  { destruct (Z.testbit caps SECURE_CONNECTION_BIT).
    - unfold pbind at 1. rewrite nonce_len_read by assumption. rewrite H2. cbn match.
      rewrite (pbind_ok _ _ _ _ _ (checked_eat_app _ part2 wp eq_refl)). reflexivity.
    - subst part2. rewrite app_nil_r. reflexivity. }
  rewrite (pbind_ok _ _ _ _ _ N).
  rewrite challenge_resize.
  destruct (Z.testbit caps PLUGIN_AUTH_BIT).
  - destruct Hp as (p & -> & Hw).
    assert (E : plugin_from_bytes wp = Ok p).
    { destruct Hw as [->| ->]; [rewrite plugin_from_terminated by apply plugin_name_nonul|]; apply plugin_from_name. }
    unfold pbind, eat_all, plift. rewrite E. reflexivity.
  - subst plugin. reflexivity.
Qed.

Lemma loose_read_inv : forall debug pkt h, bytes_ok pkt -> read_handshake debug pkt = Ok h ->
  exists part1 part2, loose_greeting debug (hs_connection_id h) (hs_capabilities h) (hs_status h) (hs_auth_plugin_data_len h)
    (hs_server_version h) part1 part2 (hs_auth_plugin h) pkt /\ hs_nonce h = challenge part1 part2.
Proof.
  intros debug pkt h Hb H. unfold read_handshake in H. destruct (handshake_p debug pkt) as [r bz] eqn:E. cbn [fst] in H. subst r.
  unfold handshake_p in E.
  apply pbind_inv in E. destruct E as (proto & b1 & E1 & E). unfold parse_uint in E1.
  destruct (_ <? _); [discriminate|]. apply eat_uint_inv in E1; [|exact Hb]. destruct E1 as (-> & Rp & B1).
  change (256 ^ Z.of_nat 1) with 256 in Rp.
  apply pbind_inv in E. destruct E as (v & b2 & E1 & E).
  apply pbind_inv in E. destruct E as (u & b3 & E2 & E). apply check_len_inv in E2. destruct E2 as (-> & L31).
  apply eat_null_str_inv in E1; [|exact B1|intros ->; rewrite lenZ_nil in L31; lia].
  destruct E1 as (wv & -> & Hv & Hz). apply BaseFacts.bytes_ok_app in B1 as (_ & B1). apply BaseFacts.bytes_ok_app in B1 as (_ & B2).
  apply pbind_inv in E. destruct E as (id & b4 & E1 & E). apply eat_uint_inv in E1; [|exact B2]. destruct E1 as (-> & Rid & B4).
  rewrite lenZ_app, wire_len in L31.
  apply pbind_inv in E. destruct E as (part1 & b5 & E1 & E). apply eat_inv in E1; [|lia]. destruct E1 as (-> & L8).
  rewrite lenZ_app, L8 in L31. apply BaseFacts.bytes_ok_app in B4 as (_ & B5).
  apply pbind_inv in E. destruct E as (u1 & b6 & E1 & E). apply skip_inv in E1; [|lia]. destruct E1 as (fl & -> & L1).
  rewrite lenZ_app, L1 in L31. apply BaseFacts.bytes_ok_app in B5 as (_ & B6).
  apply pbind_inv in E. destruct E as (c1 & b7 & E1 & E). unfold deserialize_lower in E1. apply eat_uint_inv in E1; [|exact B6].
  destruct E1 as (-> & R1 & B7). rewrite lenZ_app, wire_len in L31.
  apply pbind_inv in E. destruct E as (coll & b8 & E1 & E). apply eat_uint_inv in E1; [|exact B7].
  destruct E1 as (-> & Rc & B8). rewrite lenZ_app, wire_len in L31.
  apply pbind_inv in E. destruct E as (st & b9 & E1 & E). apply status_p_inv in E1; [|exact B8].
  destruct E1 as (-> & Rs & B9). rewrite lenZ_app, wire_len in L31.
  apply pbind_inv in E. destruct E as (c2 & b10 & E1 & E). unfold deserialize_upper in E1. apply pbind_inv in E1.
  destruct E1 as (c2' & b10' & E1 & E2). unfold pret in E2.
  assert (Q : c2 = Z.shiftl c2' 16 /\ b10 = b10') by (split; congruence). destruct Q as (-> & ->). clear E2. apply eat_uint_inv in E1; [|exact B9].
  destruct E1 as (-> & R2 & B10). rewrite lenZ_app, wire_len in L31.
  apply pbind_inv in E. destruct E as (len & b11 & E1 & E). apply eat_uint_inv in E1; [|exact B10].
  destruct E1 as (-> & Rl & B11). rewrite lenZ_app, wire_len in L31.
  apply pbind_inv in E. destruct E as (u2 & b12 & E1 & E). apply skip_inv in E1; [|lia]. destruct E1 as (rs & -> & L10).
  change (256 ^ Z.of_nat 1) with 256 in *. change (256 ^ Z.of_nat 2) with (2 ^ 16) in *. change (256 ^ Z.of_nat 4) with (2 ^ 32) in *.
  cbv zeta in E. destruct (halves c1 c2' R1 R2) as (Rcaps & Em & Ed). cbv zeta in *.
  remember (Z.lor c1 (Z.shiftl c2' 16)) as caps. clear Heqcaps.
  rewrite secure_flag, plugin_auth_flag in E.
  apply pbind_inv in E. destruct E as (nn & b13 & E1 & E).
  apply pbind_inv in E. destruct E as (pl & b14 & E2 & E). unfold pret in E. injection E as <- _.
  cbn [hs_connection_id hs_capabilities hs_status hs_auth_plugin_data_len hs_server_version hs_auth_plugin hs_nonce].
  assert (N : exists part2, b12 = part2 ++ b13 /\ nn = part1 ++ part2 /\
     (if Z.testbit caps SECURE_CONNECTION_BIT then second_part debug len = Some (Z.of_nat (length part2)) else part2 = [])).
  { destruct (Z.testbit caps SECURE_CONNECTION_BIT).
    - apply pbind_inv in E1. destruct E1 as (k & b15 & E1 & E3). rewrite nonce_len_read in E1 by exact Rl.
      destruct (second_part debug len) as [n|] eqn:Es; [|discriminate]. injection E1 as <- <-.
      apply pbind_inv in E3. destruct E3 as (p2 & b16 & E3 & E4). unfold pret in E4. injection E4 as <- <-.
      apply checked_eat_inv in E3; [|eapply second_part_pos; exact Es]. destruct E3 as (-> & L2).
      exists p2. splits; [reflexivity | reflexivity | now rewrite <- L2].
    - unfold pret in E1. injection E1 as <- <-. exists []. splits; [reflexivity | now rewrite app_nil_r | reflexivity]. }
  destruct N as (part2 & -> & -> & H2). exists part1, part2. split; [|apply challenge_resize].
  destruct fl as [|filler [|? ?]]; try (unfold lenZ in L1; cbn in L1; lia).
  rewrite !wire_1 by assumption.
  apply (loose_intro debug _ caps _ _ _ _ part2 _ _ proto wv filler coll rs b13); try assumption.
  - unfold lenZ in L8. lia.
  - unfold lenZ in L10. lia.
  - destruct (Z.testbit caps PLUGIN_AUTH_BIT).
    + unfold eat_all in E2. unfold pbind at 1 in E2. apply pbind_inv in E2. destruct E2 as (p & b15 & E2 & E3).
      unfold pret in E3. injection E3 as <- _. unfold plift in E2. injection E2 as E2 _. exists p. split; [reflexivity|].
      now apply plugin_from_inv.
    + unfold pret in E2. now injection E2 as <- _.
  - now rewrite Em, Ed.
Qed.

(** ** Versions *)
Lemma alnum_iff : forall other c, 0 <= c -> is_alphanumeric other c = true <-> alphanumeric other c.
Proof.
  intros other c H. unfold is_alphanumeric, alphanumeric. destruct (c <? 128) eqn:E.
  - split; [intros F; left; lia | intros [F|[F _]]; lia].
  - split; [intros F; right; split; [lia | exact F] | intros [F|[_ F]]; [lia | exact F]].
Qed.

Lemma scalar_pos : forall c, scalar_ok c -> 0 <= c.
Proof. intros c [H|H]; lia. Qed.

Lemma enc_pos : forall c, 1 <= lenZ (utf8_encode_char c) .
Proof.
  intros c. unfold utf8_encode_char. destruct (c <? 128); [|destruct (c <? 2048); [|destruct (c <? 65536)]];
  rewrite ?lenZ_cons, ?lenZ_nil; lia.
Qed.

Lemma enc_cons : forall c s, lenZ (utf8_encode (c :: s)) = lenZ (utf8_encode_char c) + lenZ (utf8_encode s).
Proof. intros. unfold utf8_encode. cbn [flat_map]. apply lenZ_app. Qed.

Lemma enc_len : forall s, lenZ s <= lenZ (utf8_encode s).
Proof.
  induction s as [|c s IH]; [cbv; discriminate|]. rewrite enc_cons, lenZ_cons. pose proof (enc_pos c). lia.
Qed.

Lemma enc_nil : lenZ (utf8_encode []) = 0.
Proof. reflexivity. Qed.

Lemma split_bytes_iff : forall s n u w, 0 <= n -> split_bytes s n = Some (u, w) <-> s = u ++ w /\ lenZ (utf8_encode u) = n.
Proof.
  induction s as [|c s IH]; intros n u w Hn.
  - cbn [split_bytes]. destruct (n =? 0) eqn:E.
    + split; [intros H; injection H as <- <-; split; [reflexivity | rewrite enc_nil; lia]|].
      intros (H & L). symmetry in H. apply app_eq_nil in H. destruct H as (-> & ->). reflexivity.
    + replace (n <? 0) with false by lia. split; [discriminate|]. intros (H & L). symmetry in H. apply app_eq_nil in H.
      destruct H as (-> & ->). rewrite enc_nil in L. lia.
  - cbn [split_bytes]. destruct (n =? 0) eqn:E.
    + split; [intros H; injection H as <- <-; split; [reflexivity | rewrite enc_nil; lia]|].
      intros (H & L). destruct u as [|d u]; [cbn in H; now subst|]. rewrite enc_cons in L. pose proof (enc_pos d).
      pose proof (lenZ_nonneg _ (utf8_encode u)). lia.
    + replace (n <? 0) with false by lia.
      destruct (Z.ltb_spec (n - lenZ (utf8_encode_char c)) 0) as [Hs|Hs].
      * replace (split_bytes s (n - lenZ (utf8_encode_char c))) with (@None (str * str)).
        2:{ symmetry. destruct s; cbn [split_bytes];
            replace (n - lenZ (utf8_encode_char c) =? 0) with false by lia;
            now replace (n - lenZ (utf8_encode_char c) <? 0) with true by lia. }
        split; [discriminate|]. intros (H & L). destruct u as [|d u]; [rewrite enc_nil in L; lia|].
        injection H as <- ->. rewrite enc_cons in L. pose proof (lenZ_nonneg _ (utf8_encode u)). lia.
      * split.
        -- intros H. destruct (split_bytes s _) as [[u' w']|] eqn:F; [|discriminate]. cbn [option_map] in H.
           injection H as <- <-. apply (IH (n - lenZ (utf8_encode_char c)) u' w' Hs) in F. destruct F as (-> & L).
           split; [reflexivity|]. rewrite enc_cons. lia.
        -- intros (H & L). destruct u as [|d u]; [rewrite enc_nil in L; lia|]. injection H as <- ->. rewrite enc_cons in L.
           rewrite (proj2 (IH (n - lenZ (utf8_encode_char c)) u w Hs)); [reflexivity|]. split; [reflexivity | lia].
Qed.

Lemma cut_iff : forall n s u w, str_ok s -> cut_at n s u w <-> split_bytes s (Z.of_nat n) = Some (u, w).
Proof.
  intros n s u w Hs. rewrite split_bytes_iff by lia. unfold cut_at. split.
  - intros (-> & b & T & L). split; [reflexivity|]. apply utf8_text_iff in T as (_ & <-). unfold lenZ. lia.
  - intros (-> & L). split; [reflexivity|]. exists (utf8_encode u). split; [|unfold lenZ in L; lia].
    apply utf8_text_iff. apply Forall_app in Hs as (Hu & _). auto.
Qed.

Lemma u16_digits_inv : forall s acc n, 0 <= acc < 65536 -> u16_digits acc s = Some n ->
  Forall (fun c => 48 <= c <= 57) s /\ n = fold_left (fun acc c => acc * 10 + (c - 48)) s acc /\ n < 65536.
Proof.
  induction s as [|c s IH]; intros acc n Ha H; cbn [u16_digits fold_left] in *.
  - injection H as <-. splits; [constructor | reflexivity | lia].
  - destruct ((48 <=? c) && (c <=? 57)) eqn:E; [|discriminate]. cbv zeta in H.
    destruct (acc * 10 + (c - 48) <? 65536) eqn:F; [|discriminate].
    apply IH in H; [|lia]. destruct H as (A & B & C). splits; [constructor; [lia | exact A] | exact B | exact C].
Qed.

Lemma u16_iff : forall other u n, Forall (alphanumeric other) u -> u16_from_str u = Some n <-> number_text n u.
Proof.
  intros other u n Ha. split; [|apply u16_number].
  intros H. destruct u as [|c u]; [discriminate|].
  assert (E : u16_from_str (c :: u) = u16_digits 0 (c :: u)).
  { assert (N : c <> 43) by (inversion Ha as [|? ? [F|[F _]] _]; lia). clear - N. unfold u16_from_str.
    destruct c as [|p|p]; [reflexivity| |reflexivity].
    do 6 (destruct p as [p|p|]; try reflexivity). congruence. }
  rewrite E in H. apply u16_digits_inv in H; [|lia]. destruct H as (A & B & C).
  unfold number_text. splits; [discriminate | exact A | exact B | exact C].
Qed.

Lemma find_first : forall other s, str_ok s ->
  match find_char (fun c => negb (is_alphanumeric other c)) s with
  | Some p => exists a x b, s = a ++ x :: b /\ lenZ a = p /\ Forall (alphanumeric other) a /\ ~ alphanumeric other x
  | None => Forall (alphanumeric other) s
  end.
Proof.
  intros other s Hs. destruct (find_char _ s) as [p|] eqn:E.
  - apply find_char_split in E. destruct E as (a & x & b & -> & L & Hx & Ha). exists a, x, b.
    apply Forall_app in Hs as (Sa & Sx). inversion Sx; subst. splits; [reflexivity | reflexivity | |].
    + clear - Ha Sa. induction Sa as [|c a Hc Sa IH]; [constructor|]. inversion Ha; subst. constructor; [|auto].
      apply alnum_iff; [now apply scalar_pos|]. destruct (is_alphanumeric other c); [reflexivity | discriminate].
    + intros F. apply alnum_iff in F; [|now apply scalar_pos]. rewrite F in Hx. discriminate.
  - induction Hs as [|c s Hc Hs IH]; [constructor|]. cbn [find_char] in E.
    destruct (is_alphanumeric other c) eqn:F; cbn [negb] in E; [|discriminate].
    constructor; [apply alnum_iff; [now apply scalar_pos | exact F]|]. apply IH.
    destruct (find_char _ s); [discriminate | reflexivity].
Qed.

Lemma first_unique : forall other a x b a' x' b', a ++ x :: b = a' ++ x' :: b' ->
  Forall (alphanumeric other) a -> ~ alphanumeric other x -> Forall (alphanumeric other) a' -> ~ alphanumeric other x' ->
  a = a' /\ x = x' /\ b = b'.
Proof.
  induction a as [|c a IH]; intros x b [|c' a'] x' b' E Ha Hx Ha' Hx'; cbn [app] in E; injection E as E1 E2; subst.
  - auto.
  - exfalso. inversion Ha'; subst. now apply Hx.
  - exfalso. inversion Ha; subst. now apply Hx'.
  - inversion Ha; inversion Ha'; subst. destruct (IH x b a' x' b' E2) as (-> & -> & ->); auto.
Qed.

(** One number: how [eat_int] ends. *)
Lemma eat_int_cases : forall other s, str_ok s ->
  (eat_int other s = Panic /\ forall k, version_breaks other (S k) s) \/
  (exists n r, eat_int other s = Ok (n, r) /\ str_ok r /\
     forall k, version_breaks other (S k) s <-> n <> None /\ version_breaks other k r).
Proof.
  intros other s Hs. pose proof (find_first other s Hs) as F. unfold eat_int.
  destruct (find_char _ s) as [p|].
  - destruct F as (a & x & b & -> & <- & Ha & Hx).
    change (lenZ a) with (Z.of_nat (length a)). replace (Z.of_nat (length a) + 1) with (Z.of_nat (S (length a))) by lia.
    destruct (split_bytes (a ++ x :: b) (Z.of_nat (length a))) as [[u w]|] eqn:E1.
    2:{ left. split; [reflexivity|]. intros k. apply breaks_here; auto. left. intros u w C.
        apply cut_iff in C; [|exact Hs]. congruence. }
    destruct (split_bytes (a ++ x :: b) (Z.of_nat (S (length a)))) as [[u' w']|] eqn:E2.
    2:{ left. split; [reflexivity|]. intros k. apply breaks_here; auto. right. intros u' w' C.
        apply cut_iff in C; [|exact Hs]. congruence. }
    right. apply cut_iff in E1; [|exact Hs]. apply cut_iff in E2; [|exact Hs].
    assert (Au : Forall (alphanumeric other) u).
    { destruct E1 as (Eq & bu & T & L). apply utf8_text_iff in T as (_ & <-). pose proof (enc_len u) as Lu. unfold lenZ in Lu.
      assert (P : u = firstn (length u) a).
      { assert (Q : firstn (length u) (a ++ x :: b) = firstn (length u) (u ++ w)) by now rewrite Eq.
        rewrite !firstn_app, Nat.sub_diag, firstn_all in Q. replace (length u - length a)%nat with 0%nat in Q by lia.
        cbn [firstn] in Q. rewrite !app_nil_r in Q. now symmetry. }
      rewrite P. rewrite <- (firstn_skipn (length u) a) in Ha. now apply Forall_app in Ha. }
    exists (u16_from_str u), w'. split; [reflexivity|]. split.
    { destruct E2 as (Eq & _). rewrite Eq in Hs. now apply Forall_app in Hs. }
    intros k. split.
    + intros B. inversion B as [k0 a0 x0 b0 A0 X0 C0 K0 S0 | k0 a0 x0 b0 v vw v' vw' n A0 X0 C1 C2 N V K0 S0].
      * exfalso. destruct (first_unique other _ _ _ _ _ _ S0 A0 X0 Ha Hx) as (-> & -> & ->). destruct C0 as [C0|C0]; [eapply C0; exact E1 | eapply C0; exact E2].
      * destruct (first_unique other _ _ _ _ _ _ S0 A0 X0 Ha Hx) as (-> & -> & ->).
        apply cut_iff in C1; [|exact Hs]. apply cut_iff in C2; [|exact Hs]. apply cut_iff in E1; [|exact Hs]. apply cut_iff in E2; [|exact Hs].
        rewrite E1 in C1. injection C1 as <- <-. rewrite E2 in C2. injection C2 as <- <-.
        split; [|exact V]. apply (u16_iff other) in N; [|exact Au]. rewrite N. discriminate.
    + intros (N & V). destruct (u16_from_str u) as [n|] eqn:En; [|congruence].
      apply (breaks_later other k a x b u w u' w' n); auto. apply (u16_iff other) in En; auto.
  - right. exists (u16_from_str s), []. split; [reflexivity|]. split; [constructor|]. intros k. split.
    + intros B. exfalso. inversion B as [k0 a0 x0 b0 A0 X0 C0 K0 S0 | k0 a0 x0 b0 v vw v' vw' n A0 X0 C1 C2 N V K0 S0];
      rewrite <- S0 in F; apply Forall_app in F as (_ & F); inversion F; now apply X0.
    + intros (_ & V). exfalso. inversion V; match goal with Q : ?a ++ _ :: _ = [] |- _ => destruct a; discriminate end.
Qed.

Lemma version_panics : forall other s, str_ok s ->
  (parse_server_version other s = Panic <-> version_breaks other 3 s) /\ (forall e, parse_server_version other s <> Err e).
Proof.
  intros other s Hs. unfold parse_server_version.
  assert (Z0 : forall r, ~ version_breaks other 0 r) by (intros r H; inversion H).
  destruct (eat_int_cases other s Hs) as [(-> & B)|(n1 & r1 & -> & S1 & B1)]; cbn [rbind].
  { split; [split; auto | discriminate]. }
  destruct n1 as [n1|]; [|split; [split; [discriminate | intros H; apply B1 in H as (H & _); congruence] | discriminate]].
  destruct (eat_int_cases other r1 S1) as [(-> & B)|(n2 & r2 & -> & S2 & B2)]; cbn [rbind].
  { split; [split; [intros _; apply B1; split; [discriminate | apply B] | auto] | discriminate]. }
  destruct n2 as [n2|].
  2:{ split; [split; [discriminate|] | discriminate]. intros H. apply B1 in H as (_ & H). apply B2 in H as (H & _). congruence. }
  destruct (eat_int_cases other r2 S2) as [(-> & B)|(n3 & r3 & -> & S3 & B3)]; cbn [rbind].
  { split; [split; [intros _; apply B1; split; [discriminate|]; apply B2; split; [discriminate | apply B] | auto] | discriminate]. }
  destruct n3 as [n3|]; (split; [split; [discriminate|] | discriminate]); intros H; exfalso;
    apply B1 in H as (_ & H); apply B2 in H as (_ & H); apply B3 in H as (_ & H); now apply Z0 in H.
Qed.

Lemma greeting_outcome : forall debug other o pkt, bytes_ok pkt ->
  (handle_handshake debug other o pkt = Panic <->
   forall id caps status len version part1 part2 plugin,
     loose_greeting debug id caps status len version part1 part2 plugin pkt -> version_breaks other 3 version) /\
  (forall e, handle_handshake debug other o pkt <> Err e).
Proof.
  intros debug other o pkt Hb. unfold handle_handshake. destruct (read_handshake debug pkt) as [h|e|] eqn:E.
  - destruct (loose_read_inv debug pkt h Hb E) as (p1 & p2 & G & Hn).
    assert (Sv : str_ok (hs_server_version h)) by (destruct G as [? ? ? ? ? ? _ _ _ _ _ _ T _ _ _ _ _ _]; now apply utf8_text_iff in T).
    destruct (version_panics other _ Sv) as (V & NE).
    destruct (parse_server_version other (hs_server_version h)) as [v|e|] eqn:P; cbn [rbind].
    + split; [split|]; [destruct v as [[? ?]|]; discriminate| |destruct v as [[? ?]|]; discriminate].
      intros H. exfalso. apply H in G. apply V in G. discriminate.
    + exfalso. now apply (NE e).
    + split; [|discriminate]. split; [|reflexivity]. intros _ id caps status len version part1 part2 plugin G'.
      apply loose_read in G'. destruct G' as (? & ? & G'). rewrite E in G'. injection G' as ->. cbn [hs_server_version] in V. now apply V.
  - split; [|discriminate]. split; [|reflexivity]. intros _ id caps status len version part1 part2 plugin G'.
    apply loose_read in G'. destruct G' as (? & ? & G'). congruence.
  - split; [|discriminate]. split; [|reflexivity]. intros _ id caps status len version part1 part2 plugin G'.
    apply loose_read in G'. destruct G' as (? & ? & G'). congruence.
Qed.
