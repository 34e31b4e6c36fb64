(** Lemmas about the greeting and the handshake response. *)
From Coq Require Import String ZArith List Bool Lia.
From Verif Require Import Base BaseFacts Types Utf8 ParseBuf BufMut Spec_Wire ParseBuf_proofs Rows_proofs Conversion
  Spec_Conv Conversion_proofs Packets Spec_Packets Packets_proofs Scramble Crypt Handshake Spec_Handshake.
Import ListNotations.
Open Scope Z_scope.
Open Scope parse_scope.

(** ** Capability bits *)
Lemma secure_flag : forall x, has_flag x CAP_SECURE_CONNECTION = Z.testbit x SECURE_CONNECTION_BIT.
Proof. intros. change CAP_SECURE_CONNECTION with (2 ^ 15). now apply has_flag_bit. Qed.
Lemma plugin_auth_flag : forall x, has_flag x CAP_PLUGIN_AUTH = Z.testbit x PLUGIN_AUTH_BIT.
Proof. intros. change CAP_PLUGIN_AUTH with (2 ^ 19). now apply has_flag_bit. Qed.
Lemma lenenc_flag : forall x, has_flag x CAP_LENENC_CLIENT_DATA = Z.testbit x LENENC_CLIENT_DATA_BIT.
Proof. intros. change CAP_LENENC_CLIENT_DATA with (2 ^ 21). now apply has_flag_bit. Qed.

Lemma caps_halves : forall c, 0 <= c < 2 ^ 32 ->
  Z.lor (c mod 2 ^ 16) (Z.shiftl (c / 2 ^ 16) 16) = c.
Proof.
  intros c Hc. apply Z.bits_inj'. intros n Hn. rewrite Z.lor_spec, Z.shiftl_spec by lia.
  destruct (Z.ltb_spec n 16).
  - rewrite Z.mod_pow2_bits_low by lia. rewrite (Z.testbit_neg_r (c / 2 ^ 16)) by lia. apply orb_false_r.
  - rewrite Z.mod_pow2_bits_high by lia. rewrite Z.div_pow2_bits by lia.
    replace (n - 16 + 16) with n by lia. reflexivity.
Qed.

(** ** Plugin names *)
Lemma plugin_bytes_name : forall p, plugin_bytes p = plugin_name p.
Proof. destruct p; reflexivity. Qed.
Lemma plugin_name_nonul : forall p, ~ In 0 (plugin_name p).
Proof. destruct p; cbv; intuition discriminate. Qed.
Lemma plugin_from_name : forall p, plugin_from_bytes (plugin_name p) = Ok p.
Proof. destruct p; vm_compute; reflexivity. Qed.
Lemma plugin_from_unknown : forall n, ~ In 0 n -> (forall p, n <> plugin_name p) ->
  plugin_from_bytes n = Err (PUnknownAuthPlugin n).
Proof.
  intros n Hz H. unfold plugin_from_bytes. rewrite strip_zero_not by assumption. cbv zeta.
  repeat match goal with |- context[list_eqb n ?x] =>
    replace (list_eqb n x) with false by (symmetry; apply list_eqb_neq; rewrite plugin_bytes_name; apply H) end.
  reflexivity.
Qed.
Lemma plugin_from_terminated : forall n, ~ In 0 n -> plugin_from_bytes (n ++ [0]) = plugin_from_bytes n.
Proof. intros n H. unfold plugin_from_bytes. rewrite strip_zero_app, strip_zero_not by assumption. reflexivity. Qed.

(** The plugin a name stands for. *)
Definition plugin_of (n : list Z) : res protocol_error auth_plugin :=
  if list_eqb n (plugin_name PClear) then Ok PClear
  else if list_eqb n (plugin_name PNative) then Ok PNative
  else if list_eqb n (plugin_name PSha2) then Ok PSha2 else Err (PUnknownAuthPlugin n).
Lemma plugin_from_of : forall n, ~ In 0 n -> plugin_from_bytes n = plugin_of n.
Proof. intros n H. unfold plugin_from_bytes. rewrite strip_zero_not by assumption. reflexivity. Qed.

(** ** The greeting *)
Lemma skip_app : forall n x r, lenZ x = n -> skip n (x ++ r) = (Ok tt, r).
Proof.
  intros n x r H. unfold skip. rewrite lenZ_app. pose proof (lenZ_nonneg _ r).
  rewrite Z.min_l by lia. rewrite dropZ_app_exact by assumption. reflexivity.
Qed.

Lemma status_land_bit : forall x i, 0 <= x < 65536 ->
  Z.testbit (Z.land x STATUS_ALL) i = Z.testbit x i && negb (i =? 2).
Proof. intros. apply (status_truncate_bit x i H). Qed.

Lemma status_p_read : forall s r, known_status s -> status_p (wire_uint 2 s ++ r) = (Ok s, r).
Proof.
  intros s r H. unfold status_p. rewrite (pbind_ok _ _ _ _ _ (eat_wire 2 s r (proj1 H))).
  replace (Z.land s STATUS_ALL) with s; [now rewrite Z.eqb_refl|].
  symmetry. apply (status_truncate_known s H).
Qed.

Lemma challenge_resize : forall p1 p2, resize20 (p1 ++ p2) = challenge p1 p2.
Proof.
  intros p1 p2. unfold resize20, challenge. rewrite takeZ_firstn, app_assoc. set (p := p1 ++ p2).
  change (Z.to_nat 20) with 20%nat. rewrite firstn_app. f_equal. unfold repeatZ, lenZ.
  replace (Z.to_nat (20 - Z.of_nat (length p))) with (20 - length p)%nat by lia.
  remember (20 - length p)%nat as k. assert (K : (k <= 20)%nat) by lia. clear - K.
  do 21 (destruct k; [reflexivity|]). lia.
Qed.

Lemma eat_null_str_text : forall v wv r, utf8_text v wv -> ~ In 0 wv ->
  eat_null_str (wv ++ [0] ++ r) = (Ok v, r).
Proof.
  intros v wv r H Hz. unfold eat_null_str.
  rewrite (pbind_ok _ _ (wv ++ [0] ++ r) wv r).
  2:{ pose proof (eat_null_slice_app wv r Hz) as E. unfold put_null_slice in E. rewrite <- app_assoc in E. exact E. }
  unfold plift, from_utf8. now rewrite (from_utf8_text v wv H).
Qed.

Lemma upper_read : forall n r, 0 <= n < 2 ^ (8 * 2) -> deserialize_upper (wire_uint 2 n ++ r) = (Ok (Z.shiftl n 16), r).
Proof. intros n r H. unfold deserialize_upper. rewrite (pbind_ok _ _ _ _ _ (eat_wire 2 n r H)). reflexivity. Qed.

Lemma greeting_read : forall debug id caps status len version part1 part2 plugin pkt,
  greeting id caps status len version part1 part2 plugin pkt -> len <= 127 ->
  exists coll, 0 <= coll < 256 /\
  read_handshake debug pkt =
  match plugin with
  | None => Ok (mkHandshake 10 version id caps coll status len (challenge part1 part2) None)
  | Some name => rmap (fun p => mkHandshake 10 version id caps coll status len (challenge part1 part2) (Some p))
                   (plugin_of name)
  end.
Proof.
  intros debug id caps status len version part1 part2 plugin pkt H Hlen.
  destruct H as [wv filler coll reserved w2 wp Hid Hcaps Hl Hc Hs Hv Hz L1 Lr H2 Hp ->].
  exists coll. split; [assumption|].
  assert (D1 : 0 <= caps mod 2 ^ 16 < 65536) by (apply Z.mod_pos_bound; lia).
  assert (D2 : 0 <= caps / 2 ^ 16 < 65536) by (split; [apply Z.div_pos; lia | apply Z.div_lt_upper_bound; lia]).
  unfold read_handshake, handshake_p.
  rewrite (pbind_ok _ _ _ 10 (wv ++ [0] ++ wire_uint 4 id ++ part1 ++ [filler] ++ wire_uint 2 (caps mod 2 ^ 16) ++
    [coll] ++ wire_uint 2 status ++ wire_uint 2 (caps / 2 ^ 16) ++ [len] ++ reserved ++ w2 ++ wp)).
  2:{ change [10] with (le_bytes 1 10). apply parse_uint_app. unfold unsigned_ok. lia. }
  rewrite (pbind_ok _ _ _ _ _ (eat_null_str_text _ _ _ Hv Hz)).
  assert (L8 : lenZ part1 = 8) by (unfold lenZ; lia). assert (L10 : lenZ reserved = 10) by (unfold lenZ; lia).
  erewrite pbind_ok.
  2:{ apply check_len_ok. rewrite !lenZ_app, !wire_len, !lenZ_cons, !lenZ_nil, L8, L10.
      pose proof (lenZ_nonneg _ w2). pose proof (lenZ_nonneg _ wp). lia. }
  rewrite (pbind_ok _ _ _ _ _ (eat_wire 4 id _ Hid)).
  rewrite (pbind_ok _ _ _ _ _ (eat_app 8 part1 _ L8)).
  rewrite (pbind_ok _ _ _ _ _ (skip_app 1 [filler] _ eq_refl)).
  rewrite (pbind_ok _ _ _ _ _ (eat_wire 2 _ _ D1 : deserialize_lower _ = _)).
  erewrite pbind_ok by (apply eat_u8_cons).
  rewrite (pbind_ok _ _ _ _ _ (status_p_read _ _ Hs)).
  rewrite (pbind_ok _ _ _ _ _ (upper_read _ _ D2)).
  erewrite pbind_ok by (apply eat_u8_cons).
  rewrite (pbind_ok _ _ _ _ _ (skip_app 10 reserved _ L10)).
  cbv zeta. rewrite caps_halves by assumption. rewrite secure_flag, plugin_auth_flag.
  assert (N : (if Z.testbit caps SECURE_CONNECTION_BIT
     then len0 <- nonce_rest_len debug len;; rest <- checked_eat len0;; pret (part1 ++ rest)
     else pret part1) (w2 ++ wp) = (Ok (part1 ++ part2), wp)).
  { destruct (Z.testbit caps SECURE_CONNECTION_BIT).
    - destruct H2 as (L2 & ->). unfold nonce_rest_len.
      replace (to_signed 1 len) with len.
      2:{ unfold to_signed. change (256 ^ Z.of_nat 1 / 2) with 128. now replace (len <? 128) with true by lia. }
      cbv zeta. replace (len - 8 <? -128) with false by lia.
      unfold pbind at 1. unfold pret at 1. cbn match.
      rewrite (pbind_ok _ _ _ _ _ (checked_eat_app _ part2 wp L2)). reflexivity.
    - destruct H2 as (-> & ->). rewrite app_nil_r. reflexivity. }
  rewrite (pbind_ok _ _ _ _ _ N).
  rewrite challenge_resize.
  destruct (Z.testbit caps PLUGIN_AUTH_BIT).
  - destruct Hp as (name & -> & Hn & Hw).
    assert (E : plugin_from_bytes wp = plugin_of name).
    { destruct Hw as [->| ->]; [rewrite plugin_from_terminated by assumption|]; now apply plugin_from_of. }
    unfold pbind, eat_all, plift. rewrite E. destruct (plugin_of name); reflexivity.
  - subst plugin. reflexivity.
Qed.

(** ** No panics while reading *)
Lemma np_nonce_rest : forall len, no_panic (nonce_rest_len false len).
Proof. intros len b. unfold nonce_rest_len. cbv zeta. destruct (_ <? _); discriminate. Qed.
Lemma np_plugin_from : forall n, no_panic (plift (plugin_from_bytes n)).
Proof.
  intros n b. unfold plift, plugin_from_bytes. cbv zeta. cbn [fst].
  repeat destruct (list_eqb _ _); discriminate.
Qed.
Lemma takes_skip_n : forall n, 0 <= n -> takes (skip n) n.
Proof.
  intros n Hn b H. unfold skip. rewrite Z.min_l by lia. eexists _, _. split; [reflexivity|].
  rewrite lenZ_dropZ by lia. lia.
Qed.
Lemma takes_eat_n : forall n, 0 <= n -> takes (eat n) n.
Proof.
  intros n Hn b H. unfold eat. replace (lenZ b <? n) with false by lia. eexists _, _. split; [reflexivity|].
  rewrite lenZ_dropZ by lia. lia.
Qed.
Lemma safe_status : forall A (f : Z -> P A) k, 0 <= k -> (forall a, safe (f a) k) -> safe (pbind status_p f) (2 + k).
Proof.
  intros A f k Hk Hf b H. unfold pbind, status_p.
  destruct (takes_eat 2 b) as (x & b' & E & L); [change (Z.of_nat 2) with 2; lia|].
  unfold pbind. rewrite E. destruct (_ =? _); [|discriminate]. unfold pret. cbn match. apply Hf.
  change (Z.of_nat 2) with 2 in L. lia.
Qed.

Lemma takes_upper : takes deserialize_upper 2.
Proof.
  intros b H. destruct (takes_eat 2 b H) as (x & b' & E & L). unfold deserialize_upper.
  rewrite (pbind_ok _ _ _ _ _ E). eexists _, _. split; [reflexivity | exact L].
Qed.

Lemma read_handshake_np : forall pkt, read_handshake false pkt <> Panic.
Proof.
  intros pkt. unfold read_handshake. revert pkt. change (no_panic (handshake_p false)).
  unfold handshake_p. apply np_bind; [apply np_parse_uint|]. intros pv.
  apply np_bind; [apply np_eat_null_str|]. intros v. apply safe_check.
  apply (safe_bind _ _ _ _ 4 27); [lia | apply (takes_eat 4)|]. intros id.
  apply (safe_bind _ _ _ _ 8 19); [lia | apply (takes_eat_n 8); lia|]. intros n1.
  apply (safe_bind _ _ _ _ 1 18); [lia | apply takes_skip|]. intros _.
  apply (safe_bind _ _ _ _ 2 16); [lia | apply (takes_eat 2)|]. intros c1.
  apply (safe_bind _ _ _ _ 1 15); [lia | apply (takes_eat 1)|]. intros coll.
  apply (safe_status _ _ 13); [lia|]. intros st.
  apply (safe_bind _ _ _ _ 2 11); [lia | apply takes_upper|]. intros c2.
  apply (safe_bind _ _ _ _ 1 10); [lia | apply (takes_eat 1)|]. intros dl.
  apply (safe_bind _ _ _ _ 10 0); [lia | apply (takes_skip_n 10); lia|]. intros _.
  apply safe_np. cbv zeta. apply np_bind.
  - destruct (has_flag _ _); [|apply np_ret]. apply np_bind; [apply np_nonce_rest|]. intros l.
    apply np_bind; [apply np_checked_eat|]. intros. apply np_ret.
  - intros nn. apply np_bind.
    + destruct (has_flag _ _); [|apply np_ret]. apply np_bind; [apply np_eat_all|]. intros.
      apply np_bind; [apply np_plugin_from|]. intros. apply np_ret.
    + intros. apply np_ret.
Qed.

(** ** Server versions *)
Definition ascii (s : list Z) : Prop := Forall (fun c => 0 <= c < 128) s.

Lemma enc_ascii : forall c, 0 <= c < 128 -> lenZ (utf8_encode_char c) = 1.
Proof. intros c H. unfold utf8_encode_char. now replace (c <? 128) with true by lia. Qed.

Lemma split_bytes_app : forall a b, ascii a -> split_bytes (a ++ b) (lenZ a) = Some (a, b).
Proof.
  induction a as [|c a IH]; intros b H.
  - rewrite lenZ_nil. destruct b; reflexivity.
  - inversion H; subst. cbn [app split_bytes]. pose proof (lenZ_nonneg _ a). rewrite lenZ_cons.
    replace (1 + lenZ a =? 0) with false by lia. replace (1 + lenZ a <? 0) with false by lia.
    rewrite enc_ascii by assumption. replace (1 + lenZ a - 1) with (lenZ a) by lia.
    rewrite IH by assumption. reflexivity.
Qed.

Lemma find_char_none : forall f s, Forall (fun c => f c = false) s -> find_char f s = None.
Proof. induction 1; cbn; [reflexivity|]. now rewrite H, IHForall. Qed.
Lemma find_char_app : forall f a x b, Forall (fun c => f c = false) a -> f x = true ->
  find_char f (a ++ x :: b) = Some (lenZ a).
Proof.
  intros f a x b H Hx. induction H as [|c a Hc H IH]; cbn [app find_char].
  - now rewrite Hx.
  - rewrite Hc, IH. cbn [option_map]. rewrite lenZ_cons. f_equal. lia.
Qed.
Lemma find_char_split : forall f s p, find_char f s = Some p ->
  exists a x b, s = a ++ x :: b /\ lenZ a = p /\ f x = true /\ Forall (fun c => f c = false) a.
Proof.
  intros f. induction s as [|c s IH]; intros p H; [discriminate|]. cbn [find_char] in H.
  destruct (f c) eqn:E.
  - injection H as <-. exists [], c, s. splits; auto.
  - destruct (find_char f s) as [q|]; [|discriminate]. injection H as <-.
    destruct (IH q eq_refl) as (a & x & b & -> & L & Hx & Ha). exists (c :: a), x, b.
    splits; auto. rewrite lenZ_cons. lia.
Qed.

Lemma ascii_app : forall a b, ascii (a ++ b) <-> ascii a /\ ascii b.
Proof. intros. apply Forall_app. Qed.

Lemma eat_int_ascii : forall other s, ascii s ->
  exists n r, eat_int other s = Ok (n, r) /\ ascii r.
Proof.
  intros other s H. unfold eat_int. destruct (find_char _ s) as [p|] eqn:E.
  - apply find_char_split in E. destruct E as (a & x & b & -> & <- & Hx & Ha).
    apply ascii_app in H. destruct H as (A & B). inversion B; subst.
    rewrite split_bytes_app by assumption.
    replace (a ++ x :: b) with ((a ++ [x]) ++ b) by (rewrite <- app_assoc; reflexivity).
    replace (lenZ a + 1) with (lenZ (a ++ [x])) by (rewrite lenZ_app; reflexivity).
    rewrite split_bytes_app by (apply ascii_app; split; [assumption|]; repeat constructor; lia).
    eauto.
  - eexists _, []. split; [reflexivity | constructor].
Qed.

Lemma version_ascii_ok : forall other s, ascii s -> exists v, parse_server_version other s = Ok v.
Proof.
  intros other s H. unfold parse_server_version.
  destruct (eat_int_ascii other s H) as (a & r1 & -> & H1). cbn [rbind]. destruct a; [|eauto].
  destruct (eat_int_ascii other r1 H1) as (b & r2 & -> & H2). cbn [rbind]. destruct b; [|eauto].
  destruct (eat_int_ascii other r2 H2) as (c & r3 & -> & H3). cbn [rbind]. destruct c; eauto.
Qed.

Lemma fold_digits_le : forall s acc, 0 <= acc -> Forall (fun c => 48 <= c <= 57) s ->
  acc <= fold_left (fun acc c => acc * 10 + (c - 48)) s acc.
Proof.
  induction s as [|c s IH]; intros acc Ha H; cbn [fold_left]; [lia|]. inversion H; subst.
  apply Z.le_trans with (acc * 10 + (c - 48)); [lia|]. apply IH; [lia | assumption].
Qed.
Lemma u16_digits_ok : forall s acc, 0 <= acc -> Forall (fun c => 48 <= c <= 57) s ->
  fold_left (fun acc c => acc * 10 + (c - 48)) s acc < 65536 ->
  u16_digits acc s = Some (fold_left (fun acc c => acc * 10 + (c - 48)) s acc).
Proof.
  induction s as [|c s IH]; intros acc Ha H L; cbn [fold_left u16_digits] in *; [reflexivity|].
  inversion H; subst. replace ((48 <=? c) && (c <=? 57)) with true by lia. cbv zeta.
  pose proof (fold_digits_le s (acc * 10 + (c - 48)) ltac:(lia) ltac:(assumption)).
  replace (acc * 10 + (c - 48) <? 65536) with true by lia. apply IH; [lia | assumption | assumption].
Qed.
Lemma u16_number : forall n s, number_text n s -> u16_from_str s = Some n.
Proof.
  intros n s (Hne & Hd & -> & L). unfold u16_from_str. destruct s as [|c s]; [congruence|].
  inversion Hd; subst.
  assert (E : u16_digits 0 (c :: s) = Some (fold_left (fun acc c => acc * 10 + (c - 48)) (c :: s) 0))
    by (apply u16_digits_ok; [lia | assumption | assumption]).
  assert (C : c = 48 \/ c = 49 \/ c = 50 \/ c = 51 \/ c = 52 \/ c = 53 \/ c = 54 \/ c = 55 \/ c = 56 \/ c = 57) by lia.
  clear - E C. repeat (destruct C as [->|C]; [exact E|]). subst. exact E.
Qed.

Lemma number_alnum : forall other n s, number_text n s ->
  Forall (fun c => negb (is_alphanumeric other c) = false) s.
Proof.
  intros other n s (_ & H & _). eapply Forall_impl; [|exact H]. intros c Hc. cbv beta in Hc.
  unfold is_alphanumeric. replace (c <? 128) with true by lia.
  replace ((48 <=? c) && (c <=? 57)) with true by lia. reflexivity.
Qed.
Lemma number_ascii : forall n s, number_text n s -> ascii s.
Proof. intros n s (_ & H & _). eapply Forall_impl; [|exact H]. intros. cbv beta in *. lia. Qed.

Lemma eat_int_number : forall other n s x r, number_text n s -> separator x ->
  eat_int other (s ++ x :: r) = Ok (Some n, r).
Proof.
  intros other n s x r H Hx. unfold eat_int.
  rewrite find_char_app.
  2:{ eapply number_alnum; eassumption. }
  2:{ unfold is_alphanumeric. destruct Hx as (Hx1 & Hx2 & Hx3 & Hx4). replace (x <? 128) with true by lia.
      replace ((48 <=? x) && (x <=? 57)) with false by lia. replace ((65 <=? x) && (x <=? 90)) with false by lia.
      replace ((97 <=? x) && (x <=? 122)) with false by lia. reflexivity. }
  pose proof (number_ascii _ _ H) as A. rewrite split_bytes_app by assumption.
  replace (s ++ x :: r) with ((s ++ [x]) ++ r) by (rewrite <- app_assoc; reflexivity).
  replace (lenZ s + 1) with (lenZ (s ++ [x])) by (rewrite lenZ_app; reflexivity).
  rewrite split_bytes_app.
  2:{ apply ascii_app. split; [assumption|]. destruct Hx. repeat constructor; lia. }
  now rewrite (u16_number n s H).
Qed.
Lemma eat_int_end : forall other n s, number_text n s -> eat_int other s = Ok (Some n, []).
Proof.
  intros other n s H. unfold eat_int. rewrite find_char_none by (eapply number_alnum; eassumption).
  now rewrite (u16_number n s H).
Qed.

Lemma dot_separator : separator 46.
Proof. unfold separator. lia. Qed.

Lemma parse_version_text : forall other a b c suffix s, version_text a b c suffix s ->
  parse_server_version other s = Ok (Some ((a, b, c), starts_with (tl suffix) (s2l "MariaDB"))).
Proof.
  intros other a b c suffix s H. unfold parse_server_version. destruct H as [sa sb sc Ha Hb Hc | sa sb sc x sfx Ha Hb Hc Hx];
  cbn [app]; rewrite (eat_int_number other a sa 46 _ Ha dot_separator); cbn [rbind];
  rewrite (eat_int_number other b sb 46 _ Hb dot_separator); cbn [rbind].
  - rewrite (eat_int_end other c sc Hc). cbn [rbind tl]. reflexivity.
  - rewrite (eat_int_number other c sc x _ Hc Hx). cbn [rbind tl]. reflexivity.
Qed.

(** ** The server's reading *)
Lemma srv_bytes_app : forall n x r, length x = n -> srv_bytes n (x ++ r) = Some (x, r).
Proof.
  intros n x r H. unfold srv_bytes. rewrite app_length.
  replace (Nat.leb n (length x + length r)) with true by (symmetry; apply Nat.leb_le; lia).
  rewrite firstn_app, skipn_app, H, Nat.sub_diag. cbn [firstn skipn].
  rewrite firstn_all2, skipn_all2 by lia. now rewrite app_nil_r.
Qed.
Lemma srv_uint_le : forall k n r, 0 <= n < 256 ^ Z.of_nat k -> srv_uint k (le_bytes k n ++ r) = Some (n, r).
Proof.
  intros k n r H. unfold srv_uint. rewrite srv_bytes_app by apply le_bytes_length. cbn [obind].
  do 2 f_equal. change (le_val (le_bytes k n) = n). now apply le_val_bytes.
Qed.
Lemma srv_nul_app : forall s r, ~ In 0 s -> srv_nul (put_null_slice s ++ r) = Some (s, r).
Proof.
  unfold put_null_slice. induction s as [|x s IH]; intros r H; cbn [app srv_nul]; [reflexivity|].
  destruct (Z.eqb_spec x 0); [subst; exfalso; apply H; now left|].
  rewrite IH by (intros F; apply H; now right). reflexivity.
Qed.
Lemma srv_lenenc_put : forall n r, 0 <= n < 2 ^ 64 -> srv_lenenc (put_lenenc_int n ++ r) = Some (n, r).
Proof.
  intros n r H. unfold srv_lenenc, put_lenenc_int.
  destruct (Z.ltb_spec n 251).
  { rewrite (srv_uint_le 1) by lia. cbn [obind]. now replace (n <=? 250) with true by lia. }
  assert (U : forall x r, 0 <= x < 256 -> srv_uint 1 (x :: r) = Some (x, r)).
  { intros x r0 Hx. rewrite <- (srv_uint_le 1 x r0) by lia. cbn [le_bytes app]. now rewrite Z.mod_small by lia. }
  destruct (Z.ltb_spec n 65536).
  { cbn [app]. rewrite U by lia. cbn [obind]. apply (srv_uint_le 2). lia. }
  destruct (Z.ltb_spec n 16777216); cbn [app]; rewrite U by lia; cbn [obind].
  - apply (srv_uint_le 3). lia.
  - apply (srv_uint_le 8). lia.
Qed.

(** ** Capabilities of the response *)
Lemma set_flag_bit : forall p c k i, 0 <= k ->
  Z.testbit (set_flag p c (2 ^ k)) i = if k =? i then p else Z.testbit c i.
Proof.
  intros p c k i Hk. unfold set_flag. destruct (Z.ltb_spec i 0).
  { rewrite !Z.testbit_neg_r by lia. replace (k =? i) with false by lia. reflexivity. }
  destruct p; [rewrite Z.lor_spec | rewrite Z.ldiff_spec]; rewrite Z.pow2_bits_eqb by lia;
  destruct (Z.eqb_spec k i); destruct (Z.testbit c i); reflexivity.
Qed.

(** The capabilities the response carries. *)
Definition sent_caps (caps : Z) (db plugin : bool) : Z :=
  set_flag false (set_flag plugin (set_flag db caps CAP_CONNECT_WITH_DB) CAP_PLUGIN_AUTH) CAP_CONNECT_ATTRS.

Lemma sent_caps_bit : forall caps db plugin i,
  Z.testbit (sent_caps caps db plugin) i =
  if i =? CONNECT_ATTRS_BIT then false
  else if i =? PLUGIN_AUTH_BIT then plugin
  else if i =? CONNECT_WITH_DB_BIT then db
  else Z.testbit caps i.
Proof.
  intros. unfold sent_caps.
  change CAP_CONNECT_ATTRS with (2 ^ 20). change CAP_PLUGIN_AUTH with (2 ^ 19).
  change CAP_CONNECT_WITH_DB with (2 ^ 3). rewrite !set_flag_bit by lia.
  rewrite (Z.eqb_sym 20), (Z.eqb_sym 19), (Z.eqb_sym 3). reflexivity.
Qed.

Lemma bits_bound : forall x n, 0 <= n -> 0 <= x -> (forall i, n <= i -> Z.testbit x i = false) -> x < 2 ^ n.
Proof.
  intros x n Hn Hx H. destruct (Z.eq_dec x 0) as [->|N]; [apply Z.pow_pos_nonneg; lia|].
  apply Z.log2_lt_pow2; [lia|]. destruct (Z.lt_ge_cases (Z.log2 x) n); [assumption|].
  specialize (H (Z.log2 x) H0). rewrite Z.bit_log2 in H by lia. discriminate.
Qed.
Lemma high_bits : forall x n i, 0 <= x < 2 ^ n -> 0 <= n <= i -> Z.testbit x i = false.
Proof.
  intros x n i Hx Hi. destruct (Z.eq_dec x 0) as [->|N]; [apply Z.bits_0|].
  apply Z.bits_above_log2; [lia|]. apply Z.lt_le_trans with n; [|lia]. apply Z.log2_lt_pow2; lia.
Qed.
Lemma sent_caps_range : forall caps db plugin, 0 <= caps < 2 ^ 32 -> 0 <= sent_caps caps db plugin < 2 ^ 32.
Proof.
  intros caps db plugin H.
  assert (N : 0 <= sent_caps caps db plugin).
  { unfold sent_caps, set_flag. apply Z.ldiff_nonneg. left.
    assert (0 <= (if db then Z.lor caps CAP_CONNECT_WITH_DB else Z.ldiff caps CAP_CONNECT_WITH_DB)).
    { destruct db; [apply Z.lor_nonneg | apply Z.ldiff_nonneg]; [split|left]; unfold CAP_CONNECT_WITH_DB; lia. }
    destruct plugin; [apply Z.lor_nonneg | apply Z.ldiff_nonneg]; [split|left]; unfold CAP_PLUGIN_AUTH; lia. }
  split; [assumption|]. apply bits_bound; [lia | assumption|]. intros i Hi. rewrite sent_caps_bit.
  replace (i =? CONNECT_ATTRS_BIT) with false by (unfold CONNECT_ATTRS_BIT; lia).
  replace (i =? PLUGIN_AUTH_BIT) with false by (unfold PLUGIN_AUTH_BIT; lia).
  replace (i =? CONNECT_WITH_DB_BIT) with false by (unfold CONNECT_WITH_DB_BIT; lia).
  apply (high_bits caps 32); lia.
Qed.

Lemma utf8_collation_ok : forall a b c, 0 <= a -> 0 <= b < 65536 -> 0 <= c < 65536 ->
  (if version_ge_553 (a, b, c) then 45 else 33) = utf8_collation (a, b, c).
Proof.
  intros a b c Ha Hb Hc. unfold version_ge_553, utf8_collation.
  destruct (Z.ltb_spec ((a * 65536 + b) * 65536 + c) ((5 * 65536 + 5) * 65536 + 3)).
  - replace ((5 <? a) || ((a =? 5) && ((5 <? b) || ((b =? 5) && (3 <=? c))))) with false; [reflexivity|].
    lia.
  - replace ((5 <? a) || ((a =? 5) && ((5 <? b) || ((b =? 5) && (3 <=? c))))) with true; [reflexivity|]. lia.
Qed.

Definition version_ok (v : Z * Z * Z) : Prop :=
  let '(a, b, c) := v in 0 <= a < 65536 /\ 0 <= b < 65536 /\ 0 <= c < 65536.

Lemma response_read : forall scramble version user db plugin caps max,
  0 <= caps < 2 ^ 32 -> 0 <= max < 2 ^ 32 -> version_ok version ->
  ~ In 0 user -> (forall x, db = Some x -> ~ In 0 x) -> carriable caps scramble ->
  server_reads (response_serialize (response_new scramble version user db plugin caps None max)) =
  Some (mkHello (sent_caps caps (is_some db) (is_some plugin)) max (utf8_collation version) user scramble db
          (option_map plugin_name plugin)).
Proof.
  intros scramble [[va vb] vc] user db plugin caps max Hcaps Hmax (Hv1 & Hv2 & Hv3) Hu Hdb Hs.
  unfold response_serialize, response_new. cbv zeta. cbn [hr_capabilities hr_max_packet_size hr_collation
    hr_scramble hr_encoding hr_user hr_db_name hr_auth_plugin hr_attributes].
  change (@is_some (list (bytes * bytes)) None) with false. unfold bytes in *.
  fold (sent_caps caps (is_some db) (is_some plugin)).
  rewrite utf8_collation_ok by lia.
  pose proof (sent_caps_range caps (is_some db) (is_some plugin) Hcaps) as Hr.
  unfold server_reads. rewrite (srv_uint_le 4) by exact Hr. cbn [obind].
  rewrite (srv_uint_le 4) by exact Hmax. cbn [obind].
  rewrite (srv_uint_le 1) by (unfold utf8_collation; destruct (_ <? _); cbn; lia). cbn [obind].
  rewrite srv_bytes_app by reflexivity. cbn [obind].
  rewrite srv_nul_app by assumption. cbn [obind].
  rewrite !sent_caps_bit. cbn [Z.eqb LENENC_CLIENT_DATA_BIT SECURE_CONNECTION_BIT CONNECT_ATTRS_BIT PLUGIN_AUTH_BIT
    CONNECT_WITH_DB_BIT Pos.eqb].
  rewrite lenenc_flag, secure_flag. unfold carriable in Hs.
  set (tail := match db with Some db => put_null_slice db | None => [] end ++
     match plugin with Some p => plugin_serialize p | None => [] end ++ []).
  match goal with |- obind ?X _ = _ => assert (E : X = Some (scramble, tail)) end.
  { unfold LENENC_CLIENT_DATA_BIT, SECURE_CONNECTION_BIT in *. destruct (Z.testbit caps 21).
    - unfold put_lenenc_slice. rewrite <- app_assoc. rewrite srv_lenenc_put by (unfold lenZ; lia). cbn [obind].
      apply srv_bytes_app. unfold lenZ. lia.
    - destruct (Z.testbit caps 15).
      + unfold put_u8_slice. cbv zeta. rewrite Z.min_l by (unfold lenZ; lia). rewrite takeZ_all by lia.
        rewrite <- app_assoc. rewrite (srv_uint_le 1) by (unfold lenZ; lia). cbn [obind].
        apply srv_bytes_app. unfold lenZ. lia.
      + now apply srv_nul_app. }
  rewrite E. clear E. cbn [obind]. subst tail.
  destruct db as [db|]; cbn [is_some].
  - rewrite srv_nul_app by now apply Hdb. cbn [obind]. destruct plugin as [p|]; cbn [is_some].
    + unfold plugin_serialize. rewrite plugin_bytes_name. fold (put_null_slice (plugin_name p)).
      rewrite srv_nul_app by apply plugin_name_nonul. cbn [obind]. reflexivity.
    + reflexivity.
  - cbn [obind app]. destruct plugin as [p|]; cbn [is_some].
    + unfold plugin_serialize. rewrite plugin_bytes_name. fold (put_null_slice (plugin_name p)).
      rewrite srv_nul_app by apply plugin_name_nonul. cbn [obind]. reflexivity.
    + reflexivity.
Qed.

Lemma utf8_char_nonul : forall c, c <> 0 -> scalar_ok c -> ~ In 0 (utf8_encode_char c).
Proof.
  intros c H Hc. unfold scalar_ok in Hc. assert (C : 0 <= c) by lia. clear Hc.
  assert (D : forall k, 0 < k -> 0 <= c / k) by (intros; apply Z.div_pos; lia).
  assert (M : forall x, 0 <= x mod 64) by (intros; apply Z.mod_pos_bound; lia).
  pose proof (D 64 ltac:(lia)). pose proof (D 4096 ltac:(lia)). pose proof (D 262144 ltac:(lia)).
  pose proof (M c). pose proof (M (c / 64)). pose proof (M (c / 4096)). clear D M.
  unfold utf8_encode_char. destruct (c <? 128); [|destruct (c <? 2048); [|destruct (c <? 65536)]]; intros F;
  repeat (destruct F as [F|F];
    [first [now apply H | revert F; generalize dependent (c / 64); generalize dependent (c mod 64);
      generalize dependent (c / 4096); generalize dependent (c / 262144); intros;
      match type of F with _ + ?x = 0 => assert (0 <= x) by assumption; lia end]|]);
  destruct F.
Qed.
Lemma utf8_nonul : forall s, str_ok s -> ~ In 0 s -> ~ In 0 (utf8_encode s).
Proof.
  intros s H Hz F. unfold utf8_encode in F. apply in_flat_map in F. destruct F as (c & Hc & F).
  eapply utf8_char_nonul; [| |exact F].
  - intros ->. now apply Hz.
  - eapply Forall_forall in H; eassumption.
Qed.

(** Whatever the server reads, the capabilities are those that were serialized. *)
Lemma server_reads_caps : forall r hello, server_reads (response_serialize r) = Some hello ->
  ch_caps hello = hr_capabilities r mod 2 ^ 32.
Proof.
  intros r hello H. unfold server_reads, response_serialize in H.
  assert (E : forall rest, srv_uint 4 (le_bytes 4 (hr_capabilities r) ++ rest) = Some (hr_capabilities r mod 2 ^ 32, rest)).
  { intros rest. unfold srv_uint. rewrite srv_bytes_app by apply le_bytes_length. cbn [obind].
    do 2 f_equal. change (le_val (le_bytes 4 (hr_capabilities r)) = hr_capabilities r mod 2 ^ 32).
    now rewrite le_val_bytes_mod. }
  rewrite E in H. clear E. cbn [obind] in H.
  repeat match type of H with
  | obind ?x _ = _ => destruct x as [[? ?]|]; [cbn [obind] in H | discriminate]
  end.
  destruct (Z.testbit _ CONNECT_ATTRS_BIT); [discriminate|].
  match type of H with match ?x with _ => _ end = _ => destruct x; [|discriminate] end.
  injection H as <-. reflexivity.
Qed.

Lemma xor_len : forall a b, length (xor a b) = length a.
Proof. induction a; destruct b; cbn; auto. Qed.
Lemma scramble_native_len : forall h n p x, (forall y, length (h y) = 20%nat) -> scramble_native h n p = Some x ->
  length x = 20%nat.
Proof. intros h n p x H E. destruct p; [discriminate|]. injection E as <-. rewrite xor_len. apply H. Qed.
Lemma scramble_sha256_len : forall h n p x, (forall y, length (h y) = 32%nat) -> scramble_sha256 h n p = Some x ->
  length x = 32%nat.
Proof. intros h n p x H E. destruct p; [discriminate|]. injection E as <-. rewrite xor_len. apply H. Qed.
