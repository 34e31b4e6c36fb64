(** Documented greetings of any announced length. *)
From Coq Require Import String ZArith List Bool Lia.
From Verif Require Import Base BaseFacts Types Utf8 ParseBuf BufMut Spec_Wire ParseBuf_proofs Rows_proofs Conversion
  Spec_Conv Conversion_proofs Packets Spec_Packets Packets_proofs Scramble Crypt Handshake Spec_Handshake Handshake_proofs
  Greeting_proofs.
Import ListNotations.
Open Scope Z_scope.
Open Scope parse_scope.

(** The part of the greeting behind the fixed fields. *)
Lemma greeting_tail : forall debug id caps status len version wv part1 filler coll reserved tail,
  0 <= id < 2 ^ 32 -> 0 <= caps < 2 ^ 32 -> 0 <= len < 256 -> known_status status ->
  utf8_text version wv -> ~ In 0 wv -> length part1 = 8%nat -> length reserved = 10%nat ->
  read_handshake debug ([10] ++ wv ++ [0] ++ wire_uint 4 id ++ part1 ++ [filler] ++ wire_uint 2 (caps mod 2 ^ 16) ++
    [coll] ++ wire_uint 2 status ++ wire_uint 2 (caps / 2 ^ 16) ++ [len] ++ reserved ++ tail) =
  fst ((nonce <- (if Z.testbit caps SECURE_CONNECTION_BIT
                  then n <- nonce_rest_len debug len ;; rest <- checked_eat n ;; pret (part1 ++ rest)
                  else pret part1) ;;
        plugin <- (if Z.testbit caps PLUGIN_AUTH_BIT
                   then name <- eat_all ;; p <- plift (plugin_from_bytes name) ;; pret (Some p)
                   else pret None) ;;
        pret (mkHandshake 10 version id caps coll status len (resize20 nonce) plugin)) tail).
Proof.
  intros debug id caps status len version wv part1 filler coll reserved tail Hid Hcaps Hl Hs Hv Hz L1 Lr.
  assert (D1 : 0 <= caps mod 2 ^ 16 < 65536) by (apply Z.mod_pos_bound; lia).
  assert (D2 : 0 <= caps / 2 ^ 16 < 65536) by (split; [apply Z.div_pos; lia | apply Z.div_lt_upper_bound; lia]).
  unfold read_handshake, handshake_p.
  rewrite (pbind_ok _ _ _ 10 (wv ++ [0] ++ wire_uint 4 id ++ part1 ++ [filler] ++ wire_uint 2 (caps mod 2 ^ 16) ++
    [coll] ++ wire_uint 2 status ++ wire_uint 2 (caps / 2 ^ 16) ++ [len] ++ reserved ++ tail)).
  2:{ rewrite <- (wire_1 10) by lia. rewrite wire_uint_le. apply parse_uint_app.
      unfold unsigned_ok. change (256 ^ Z.of_nat 1) with 256. lia. }
  rewrite (pbind_ok _ _ _ _ _ (eat_null_str_text _ _ _ Hv Hz)).
  assert (L8 : lenZ part1 = 8) by (unfold lenZ; lia). assert (L10 : lenZ reserved = 10) by (unfold lenZ; lia).
  erewrite pbind_ok.
  2:{ apply check_len_ok. rewrite !lenZ_app, !wire_len, !lenZ_cons, !lenZ_nil, L8, L10.
      pose proof (lenZ_nonneg _ tail). lia. }
  rewrite (pbind_ok _ _ _ _ _ (eat_wire 4 id _ Hid)).
  rewrite (pbind_ok _ _ _ _ _ (eat_app 8 part1 _ L8)).
  rewrite (pbind_ok _ _ _ _ _ (skip_app 1 [filler] _ eq_refl)).
  rewrite (pbind_ok _ _ _ _ _ (eat_wire 2 _ _ D1 : deserialize_lower _ = _)).
  erewrite pbind_ok by (apply eat_u8_cons).
  rewrite (pbind_ok _ _ _ _ _ (status_p_read _ _ Hs)).
  rewrite (pbind_ok _ _ _ _ _ (upper_read _ _ D2)).
  erewrite pbind_ok by (apply eat_u8_cons).
  rewrite (pbind_ok _ _ _ _ _ (skip_app 10 reserved _ L10)).
  cbv zeta. rewrite caps_halves by assumption. rewrite secure_flag, plugin_auth_flag. reflexivity.
Qed.

Lemma plugin_long : forall w p, (length w > 30)%nat ->
  plugin_from_bytes (w ++ plugin_name p ++ [0]) = Err (PUnknownAuthPlugin (w ++ plugin_name p)) /\
  plugin_from_bytes (w ++ plugin_name p) = Err (PUnknownAuthPlugin (w ++ plugin_name p)).
Proof.
  intros w p L.
  assert (S : strip_zero (w ++ plugin_name p ++ [0]) = w ++ plugin_name p /\ strip_zero (w ++ plugin_name p) = w ++ plugin_name p).
  { split; unfold strip_zero.
    - rewrite app_assoc, rev_app_distr. cbn [rev app]. apply rev_involutive.
    - rewrite rev_app_distr. destruct p; reflexivity. }
  assert (N : forall x, (length x <= 30)%nat -> list_eqb (w ++ plugin_name p) x = false).
  { intros x Hx. apply list_eqb_neq. intros E. apply (f_equal (@length Z)) in E. rewrite app_length in E. lia. }
  unfold plugin_from_bytes. cbv zeta. destruct S as (-> & ->).
  rewrite !N by (vm_compute; lia). split; reflexivity.
Qed.

Lemma long_greeting : forall debug id caps status len version part1 part2 plugin pkt,
  greeting id caps status len version part1 part2 plugin pkt ->
  (forall name, plugin = Some name -> exists p, name = plugin_name p) ->
  ((exists h, read_handshake debug pkt = Ok h /\ option_map plugin_name (hs_auth_plugin h) = plugin /\
      hs_connection_id h = id /\ hs_capabilities h = caps /\ hs_nonce h = challenge part1 part2 /\
      hs_server_version h = version /\ hs_status h = status) <->
   Z.testbit caps SECURE_CONNECTION_BIT = false \/ len <= 127 \/ (len <= 135 /\ debug = false) \/
     (135 < len /\ plugin = None)) /\
  (Z.testbit caps SECURE_CONNECTION_BIT = true -> 128 <= len <= 135 -> debug = true -> read_handshake debug pkt = Panic) /\
  (Z.testbit caps SECURE_CONNECTION_BIT = true -> 135 < len -> forall name, plugin = Some name ->
     read_handshake debug pkt = Err (PUnknownAuthPlugin (skipn 13 part2 ++ name))).
Proof.
  intros debug id caps status len version part1 part2 plugin pkt G K.
  assert (R : forall pl, (Z.testbit caps SECURE_CONNECTION_BIT = false \/ len <= 127 \/ (len <= 135 /\ debug = false)) ->
     plugin = option_map plugin_name pl ->
     exists h, read_handshake debug pkt = Ok h /\ option_map plugin_name (hs_auth_plugin h) = plugin /\
      hs_connection_id h = id /\ hs_capabilities h = caps /\ hs_nonce h = challenge part1 part2 /\
      hs_server_version h = version /\ hs_status h = status).
  { intros pl C E. destruct G as [wv filler coll reserved w2 wp Hid Hcaps Hl Hc Hs Hv Hz L1 Lr H2 Hp Ep].
    destruct (loose_read debug id caps status len version part1 part2 pl pkt) as (proto & c & X).
    - assert (w2 = part2) as -> by (destruct (Z.testbit caps SECURE_CONNECTION_BIT); [tauto | destruct H2; congruence]).
      apply loose_intro with (proto := 10) (wv := wv) (filler := filler) (collation := coll) (reserved := reserved) (wp :=
        if Z.testbit caps PLUGIN_AUTH_BIT then wp else wp); try assumption; try lia.
      + destruct (Z.testbit caps SECURE_CONNECTION_BIT); [|tauto]. destruct H2 as (L & _). unfold second_part.
        destruct C as [C|[C|(C & ->)]]; [discriminate| |].
        * replace (len <=? 127) with true by lia. f_equal. lia.
        * destruct (len <=? 127) eqn:Q; [f_equal; lia|]. replace (len <=? 135) with true by lia. f_equal. lia.
      + destruct (Z.testbit caps PLUGIN_AUTH_BIT).
        * destruct Hp as (name & E1 & _ & W). destruct pl as [p|]; rewrite E in E1; [|discriminate].
          injection E1 as <-. exists p. split; [reflexivity | exact W].
        * destruct pl; [rewrite E in Hp; discriminate | reflexivity].
      + destruct (Z.testbit caps PLUGIN_AUTH_BIT); exact Ep.
    - eexists. split; [exact X|]. cbn [hs_auth_plugin hs_connection_id hs_capabilities hs_nonce hs_server_version hs_status].
      rewrite <- E. repeat split. }
  assert (P : exists pl, plugin = option_map plugin_name pl).
  { destruct plugin as [name|]; [|now exists None]. destruct (K name eq_refl) as (p & ->). now exists (Some p). }
  destruct G as [wv filler coll reserved w2 wp Hid Hcaps Hl Hc Hs Hv Hz L1 Lr H2 Hp Ep].
  assert (T := greeting_tail debug id caps status len version wv part1 filler coll reserved (w2 ++ wp) Hid Hcaps Hl Hs Hv Hz L1 Lr).
  rewrite <- Ep in T.
  assert (B1 : Z.testbit caps SECURE_CONNECTION_BIT = true -> 128 <= len <= 135 -> debug = true -> read_handshake debug pkt = Panic).
  { intros S Q ->. rewrite T, S. unfold pbind at 1 2. rewrite nonce_len_read by assumption. unfold second_part.
    replace (len <=? 127) with false by lia. replace (len <=? 135) with true by lia. reflexivity. }
  assert (E13 : Z.testbit caps SECURE_CONNECTION_BIT = true -> 135 < len ->
     (n <- nonce_rest_len debug len ;; rest <- checked_eat n ;; pret (part1 ++ rest)) (w2 ++ wp) =
       (Ok (part1 ++ firstn 13 part2), skipn 13 part2 ++ wp) /\ (length (skipn 13 part2) > 30)%nat).
  { intros S Q. rewrite S in H2. destruct H2 as (L & ->).
    assert (L2 : length (skipn 13 part2) = (length part2 - 13)%nat) by apply skipn_length.
    assert (L3 : lenZ (firstn 13 part2) = 13) by (unfold lenZ; rewrite firstn_length; lia).
    split; [|lia]. unfold pbind at 1. rewrite nonce_len_read by assumption. unfold second_part.
    replace (len <=? 127) with false by lia. replace (len <=? 135) with false by lia. cbn match.
    rewrite <- (firstn_skipn 13 part2) at 1. rewrite <- app_assoc.
    rewrite (pbind_ok _ _ _ _ _ (checked_eat_app 13 (firstn 13 part2) _ L3)). reflexivity. }
  assert (B2 : Z.testbit caps SECURE_CONNECTION_BIT = true -> 135 < len -> forall name, plugin = Some name ->
     read_handshake debug pkt = Err (PUnknownAuthPlugin (skipn 13 part2 ++ name))).
  { intros S Q name En. destruct (E13 S Q) as (E & L). rewrite T, S. rewrite (pbind_ok _ _ _ _ _ E).
    destruct (Z.testbit caps PLUGIN_AUTH_BIT); [|congruence].
    destruct Hp as (name' & E' & _ & W). assert (name' = name) as -> by congruence.
    destruct (K name En) as (p & ->). destruct (plugin_long (skipn 13 part2) p L) as (X1 & X2).
    unfold pbind, eat_all, plift. destruct W as [->| ->]; [rewrite X1 | rewrite X2]; reflexivity. }
  split; [|split; assumption]. split.
  - intros (h & Ok & _). destruct (Z.testbit caps SECURE_CONNECTION_BIT) eqn:S; [right|now left].
    destruct (Z.le_gt_cases len 127) as [|G1]; [now left|right].
    destruct (Z.le_gt_cases len 135) as [G2|G2].
    + left. split; [exact G2|]. destruct debug; [|reflexivity]. rewrite B1 in Ok by (reflexivity || lia). discriminate.
    + right. split; [exact G2|]. destruct plugin as [name|]; [|reflexivity].
      rewrite (B2 eq_refl G2 name eq_refl) in Ok. discriminate.
  - intros C. destruct P as (pl & Epl).
    destruct (Z.testbit caps SECURE_CONNECTION_BIT) eqn:S; [|apply (R pl); [now left | exact Epl]].
    destruct C as [C|[C|[C|(C & En)]]]; [discriminate| apply (R pl); auto | apply (R pl); auto |].
    destruct (E13 eq_refl C) as (E & _).
    assert (PA : Z.testbit caps PLUGIN_AUTH_BIT = false).
    { destruct (Z.testbit caps PLUGIN_AUTH_BIT); [|reflexivity]. destruct Hp as (name & E' & _). congruence. }
    rewrite PA in T. rewrite (pbind_ok _ _ _ _ _ E) in T. eexists. split; [exact T|].
    cbn [hs_auth_plugin hs_connection_id hs_capabilities hs_nonce hs_server_version hs_status].
    rewrite En. splits; try reflexivity. rewrite challenge_resize. unfold challenge.
    destruct H2 as (L & _).
    assert (forall a b : list Z, length part1 = 8%nat -> (length a >= 12)%nat -> firstn 20 (part1 ++ a ++ b) = part1 ++ firstn 12 a) as F.
    { intros a b La Lb. rewrite firstn_app, La, (firstn_all2 part1) by lia. f_equal. change (20 - 8)%nat with 12%nat.
      rewrite firstn_app. replace (12 - length a)%nat with 0%nat by lia. cbn [firstn]. apply app_nil_r. }
    rewrite !F; try assumption; try (rewrite ?firstn_length; lia). f_equal. rewrite firstn_firstn. reflexivity.
Qed.
