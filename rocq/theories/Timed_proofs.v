(** Proofs about reading with time. *)
From Coq Require Import ZArith List Bool Lia.
From Verif Require Import Base BaseFacts Types BufMut Framing Timed Spec_Wire ParseBuf_proofs Framing_proofs.
Import ListNotations.
Open Scope Z_scope.

(** ** Arrival times *)

Lemma within_app : forall d a b, Forall (fun x => snd x <= d) a -> within d (a ++ b) = a ++ within d b.
Proof.
  induction a as [|(x & t) a IH]; intros b F; [reflexivity|]. inversion F; subst. cbn [app within snd] in *.
  replace (t <=? d) with true by lia. now rewrite IH.
Qed.

Lemma within_prefix : forall d l, exists r, l = within d l ++ r /\ Forall (fun x => snd x <= d) (within d l).
Proof.
  induction l as [|(x & t) l IH]; [exists []; split; [reflexivity|constructor]|]. cbn [within]. destruct (Z.leb_spec t d) as [H|H].
  - destruct IH as (r & E & F). exists r. cbn [app]. rewrite <- E. split; [reflexivity|]. now constructor.
  - exists ((x, t) :: l). split; [reflexivity|constructor].
Qed.

Lemma last_time_ge : forall l now, now <= last_time now l.
Proof.
  unfold last_time. induction l as [|(x & t) l IH]; intros now; cbn [map snd fold_left]; [lia|].
  specialize (IH (Z.max now t)). lia.
Qed.

Lemma last_time_le : forall l now d, now <= d -> Forall (fun x => snd x <= d) l -> last_time now l <= d.
Proof.
  unfold last_time. induction l as [|(x & t) l IH]; intros now d H F; cbn [map snd fold_left]; [lia|].
  inversion F; subst. cbn [snd] in *. apply IH; [lia|assumption].
Qed.

Lemma last_time_app : forall a b now, last_time now (a ++ b) = last_time (last_time now a) b.
Proof. intros a b now. unfold last_time. now rewrite map_app, fold_left_app. Qed.

(** ** One read *)

(** Every read is a read of the untimed stream that ends where the arrived bytes end, and takes
    at most the time-out. *)
Lemma exact_sim : forall T n s r s', 0 <= T -> 0 <= n -> read_exact_timed T n s = (r, s') ->
  t_fail s' = t_fail s /\ t_now s <= t_now s' <= t_now s + T /\
  exists used, t_in s = used ++ t_in s' /\
    match r with
    | Ok x => lenZ used = n /\ x = map fst used /\ t_now s' = last_time (t_now s) used
    | Err e => exists k, e = EProtocol (PIo k) /\ lenZ used < n /\ (k = IoTimedOut \/ exists t, t_fail s = Some (t, k))
    | Panic => False
    end.
Proof.
  intros T n s r s' HT Hn E. unfold read_exact_timed in E.
  destruct (within_prefix (t_now s + T) (t_in s)) as (rest & Ei & F).
  set (w := within (t_now s + T) (t_in s)) in *. clearbody w. pose proof (lenZ_nonneg _ w) as Lw.
  pose proof (last_time_ge (takeZ n w) (t_now s)) as G1.
  pose proof (last_time_le (takeZ n w) (t_now s) (t_now s + T) ltac:(lia) (Forall_takeZ _ _ _ _ F)) as G2.
  pose proof (last_time_ge w (t_now s)) as G3.
  pose proof (last_time_le w (t_now s) (t_now s + T) ltac:(lia) F) as G4.
  destruct (Z.leb_spec n (lenZ w)) as [H|H].
  - injection E as <- <-. cbn [t_fail t_now t_in]. split; [reflexivity|]. split; [lia|].
    exists (takeZ n w). rewrite lenZ_takeZ_le by lia. split; [|now repeat split].
    rewrite Ei, dropZ_app_le by lia. now rewrite app_assoc, take_drop.
  - assert (TO : forall q, (Err (EProtocol (PIo IoTimedOut)), mkTimed (t_now s + T) (dropZ (lenZ w) (t_in s)) (t_fail s)) = (r, q) -> q = s' ->
      t_fail s' = t_fail s /\ t_now s <= t_now s' <= t_now s + T /\
      exists used, t_in s = used ++ t_in s' /\
        match r with
        | Ok x => lenZ used = n /\ x = map fst used /\ t_now s' = last_time (t_now s) used
        | Err e => exists k, e = EProtocol (PIo k) /\ lenZ used < n /\ (k = IoTimedOut \/ exists t, t_fail s = Some (t, k))
        | Panic => False
        end).
    { intros q [= <- <-] <-. cbn [t_fail t_now t_in]. split; [reflexivity|]. split; [lia|].
      exists w. rewrite Ei, dropZ_app_exact by reflexivity. split; [reflexivity|].
      exists IoTimedOut. auto. }
    destruct (t_fail s) as [(t & k)|] eqn:Ef; [|now apply (TO s')].
    destruct ((t <=? t_now s + T) && (lenZ w =? lenZ (t_in s))) eqn:B; [|now apply (TO s')].
    apply andb_true_iff in B as (B1 & B2). apply Z.leb_le in B1. apply Z.eqb_eq in B2.
    injection E as <- <-. cbn [t_fail t_now t_in]. split; [reflexivity|]. split; [lia|].
    exists w. rewrite Ei, lenZ_app in B2. pose proof (lenZ_nonneg _ rest). assert (R : rest = []) by (apply lenZ_0; lia).
    rewrite R in Ei. split; [exact Ei|]. exists k. split; [reflexivity|]. split; [lia|]. right. now exists t.
Qed.

Lemma exact_in_time : forall T s used rest, t_in s = used ++ rest -> Forall (fun x => snd x <= t_now s + T) used ->
  read_exact_timed T (lenZ used) s = (Ok (map fst used), mkTimed (last_time (t_now s) used) rest (t_fail s)).
Proof.
  intros T s used rest E F. unfold read_exact_timed. rewrite E, within_app by exact F. rewrite lenZ_app.
  pose proof (lenZ_nonneg _ (within (t_now s + T) rest)).
  replace (lenZ used <=? lenZ used + lenZ (within (t_now s + T) rest)) with true by lia.
  now rewrite takeZ_app_exact, dropZ_app_exact.
Qed.

(** The untimed reads these are. *)
Lemma exact_ok : forall used rest e out b n, lenZ used = n ->
  read_exact n (mkStream (map fst used ++ rest) e out b) = (Ok (map (@fst Z Z) used), mkStream rest e out b).
Proof.
  intros used rest e out b n H.
  rewrite (read_exact_app n (map fst used) (mkStream (map fst used ++ rest) e out b) rest); [reflexivity|reflexivity|].
  now rewrite lenZ_map.
Qed.

Lemma exact_cut : forall used k out b n, lenZ used < n ->
  read_exact n (mkStream (map (@fst Z Z) used) k out b) = (Err (EProtocol (PIo k)), mkStream [] k out b).
Proof.
  intros used k out b n H. unfold read_exact. cbn [s_in s_end s_out s_budget]. rewrite lenZ_map.
  now replace (lenZ used <? n) with true by lia.
Qed.

(** ** One frame *)

Definition same_read {A} (r : res error A) (used : list (Z * Z)) (s : timed) (f : stream -> res error A * stream) : Prop :=
  (forall rest e out b, f (mkStream (map fst used ++ rest) e out b) = (r, mkStream rest e out b)) \/
  (exists k, r = Err (EProtocol (PIo k)) /\ (k = IoTimedOut \/ exists t, t_fail s = Some (t, k)) /\
     forall out b, f (mkStream (map fst used) k out b) = (r, mkStream [] k out b)).

Lemma chunk_sim : forall T dst s r s', 0 <= T -> bytes_ok (map fst (t_in s)) -> read_chunk_timed T dst s = (r, s') ->
  t_fail s' = t_fail s /\ t_now s <= t_now s' <= t_now s + 2 * T /\
  exists used, t_in s = used ++ t_in s' /\ same_read r used s (read_chunk_to_buf dst) /\
    match r with
    | Ok (dst', _, last) => 4 <= lenZ used /\
        (lenZ dst mod MAX_PAYLOAD_LEN = 0 -> last = false -> lenZ used = MAX_PAYLOAD_LEN + 4 /\ lenZ dst' mod MAX_PAYLOAD_LEN = 0)
    | Err _ => True
    | Panic => False
    end.
Proof.
  intros T dst s r s' HT B E. unfold read_chunk_timed in E.
  destruct (read_exact_timed T 4 s) as (r1 & s1) eqn:E1.
  destruct (exact_sim T 4 s r1 s1 HT ltac:(lia) E1) as (F1 & N1 & used & I1 & R1).
  destruct r1 as [meta|e|]; [|injection E as <- <-|contradiction].
  2:{ destruct R1 as (k & -> & L & K). split; [exact F1|]. split; [lia|]. exists used. split; [exact I1|]. split; [|exact I].
      right. exists k. split; [reflexivity|]. split; [exact K|]. intros out b. unfold read_chunk_to_buf, iobind.
      now rewrite exact_cut. }
  destruct R1 as (L1 & Em & _). cbn zeta in E.
  assert (Bu : bytes_ok (map fst used)) by (rewrite I1, map_app in B; apply bytes_ok_app in B; tauto).
  assert (C : 0 <= read_u32 (takeZ 3 meta) < 2 ^ 24).
  { unfold read_u32. rewrite Em. pose proof (le_val_range (takeZ 3 (map fst used)) (Forall_takeZ _ _ _ _ Bu)) as H.
    rewrite lenZ_takeZ_le in H by (rewrite lenZ_map; lia). exact H. }
  set (n := read_u32 (takeZ 3 meta)) in *.
  assert (U1 : forall rest e out b,
     read_exact 4 (mkStream (map fst used ++ rest) e out b) = (Ok meta, mkStream rest e out b)).
  { intros. rewrite Em. now apply exact_ok. }
  destruct (Z.eqb_spec n 0) as [Z0|Z0].
  { injection E as <- <-. split; [exact F1|]. split; [lia|]. exists used. split; [exact I1|]. split; [|split; [lia|discriminate]].
    left. intros rest e out b. unfold read_chunk_to_buf, iobind. rewrite U1. fold n. now rewrite Z0. }
  destruct (read_exact_timed T n s1) as (r2 & s2) eqn:E2.
  destruct (exact_sim T n s1 r2 s2 HT ltac:(lia) E2) as (F2 & N2 & used2 & I2 & R2).
  assert (Ii : t_in s = (used ++ used2) ++ t_in s2) by (rewrite I1, I2; apply app_assoc).
  assert (Zn : (n =? 0) = false) by lia.
  destruct r2 as [body|e|]; [| |contradiction]; injection E as <- <-; (split; [congruence|]); (split; [lia|]);
    exists (used ++ used2); (split; [exact Ii|]).
  - destruct R2 as (L2 & Eb & _). split.
    + left. intros rest e out b. unfold read_chunk_to_buf, iobind. rewrite map_app, <- app_assoc, U1. fold n. rewrite Zn.
      rewrite exact_ok by exact L2. now rewrite <- Eb.
    + rewrite lenZ_app. pose proof (lenZ_nonneg _ used2). split; [lia|]. intros Hd Hl.
      apply negb_false_iff in Hl. apply Z.eqb_eq in Hl. split; [|exact Hl].
      rewrite lenZ_app_mod in Hl by exact Hd. rewrite Eb, lenZ_map, L2 in Hl.
      assert (n = MAX_PAYLOAD_LEN); [|lia]. rewrite MAX_val in *. change (2 ^ 24) with 16777216 in C.
      destruct (Z.eq_dec n 16777215) as [|D]; [assumption|]. rewrite Z.mod_small in Hl; lia.
  - destruct R2 as (k & -> & L2 & K). split; [|exact I]. right. exists k. split; [reflexivity|].
    split; [now rewrite <- F1|]. intros out b. unfold read_chunk_to_buf, iobind. rewrite map_app, U1. fold n. rewrite Zn.
    now rewrite exact_cut.
Qed.

(** ** One packet *)

Lemma read_packet_fuels : forall f1 f2 seq dst s,
  fst (fst (read_packet_to_buf f1 seq dst s)) <> Panic -> fst (fst (read_packet_to_buf f2 seq dst s)) <> Panic ->
  read_packet_to_buf f1 seq dst s = read_packet_to_buf f2 seq dst s.
Proof.
  induction f1 as [|f1 IH]; intros f2 seq dst s H1 H2; [now cbn in H1|]. destruct f2 as [|f2]; [now cbn in H2|].
  cbn [read_packet_to_buf] in *. destruct (read_chunk_to_buf dst s) as ([((dst' & q) & last)|e|] & s1); try reflexivity.
  destruct (negb (seq =? q)); [reflexivity|]. destruct last; [reflexivity|]. now apply IH.
Qed.

Definition frame_count (s s' : timed) : Z := (lenZ (t_in s) - lenZ (t_in s')) / (MAX_PAYLOAD_LEN + 4).

Lemma loop_sim : forall T fuel seq dst s r q s', 0 <= T -> bytes_ok (map fst (t_in s)) -> lenZ dst mod MAX_PAYLOAD_LEN = 0 ->
  (length (t_in s) < fuel)%nat ->
  read_packet_loop T fuel seq dst s = ((r, q), s') ->
  t_fail s' = t_fail s /\ t_now s <= t_now s' <= t_now s + 2 * T * (1 + frame_count s s') /\ r <> Panic /\
  exists used, t_in s = used ++ t_in s' /\
  ((forall rest e out b, read_packet_to_buf fuel seq dst (mkStream (map fst used ++ rest) e out b) = ((r, q), mkStream rest e out b)) \/
   (exists k, r = Err (EProtocol (PIo k)) /\ (k = IoTimedOut \/ exists t, t_fail s = Some (t, k)) /\
      forall out b, read_packet_to_buf fuel seq dst (mkStream (map fst used) k out b) = ((r, q), mkStream [] k out b))).
Proof.
  intros T fuel. induction fuel as [|fuel IH]; intros seq dst s r q s' HT B Hd Hf E; [lia|]. cbn [read_packet_loop] in E.
  destruct (read_chunk_timed T dst s) as (r1 & s1) eqn:E1.
  destruct (chunk_sim T dst s r1 s1 HT B E1) as (F1 & N1 & used & I1 & S1 & R1).
  assert (Nn : forall a b : timed, (exists u, t_in a = u ++ t_in b) -> 0 <= frame_count a b).
  { intros a b (u & Eu). unfold frame_count. rewrite Eu, lenZ_app. pose proof (lenZ_nonneg _ u). apply Z.div_pos; [lia|]. rewrite MAX_val. lia. }
  assert (fin : t_now s1 <= t_now s + 2 * T * (1 + frame_count s s1)).
  { specialize (Nn s s1 (ex_intro _ used I1)). replace (2 * T * (1 + frame_count s s1)) with (2 * T + 2 * (T * frame_count s s1)) by ring.
    pose proof (Z.mul_nonneg_nonneg _ _ HT Nn). lia. }
  destruct r1 as [((dst' & rq) & last)|e|]; [| |contradiction].
  2:{ injection E as <- <- <-. split; [exact F1|]. split; [split; [lia|exact fin]|]. split; [discriminate|].
      exists used. split; [exact I1|]. destruct S1 as [S1|(k & Ek & K & S1)].
      - left. intros. cbn [read_packet_to_buf]. now rewrite S1.
      - right. exists k. split; [congruence|]. split; [exact K|]. intros. cbn [read_packet_to_buf]. now rewrite S1. }
  destruct S1 as [S1|(k & Ek & _)]; [|discriminate]. destruct R1 as (L1 & R1).
  destruct (negb (seq =? rq)) eqn:Q.
  { injection E as <- <- <-. split; [exact F1|]. split; [split; [lia|exact fin]|]. split; [discriminate|].
    exists used. split; [exact I1|]. left. intros. cbn [read_packet_to_buf]. now rewrite S1, Q. }
  destruct last.
  { injection E as <- <- <-. split; [exact F1|]. split; [split; [lia|exact fin]|]. split; [discriminate|].
    exists used. split; [exact I1|]. left. intros. cbn [read_packet_to_buf]. now rewrite S1, Q. }
  destruct (R1 Hd eq_refl) as (L & Hd').
  assert (B1 : bytes_ok (map fst (t_in s1))) by (rewrite I1, map_app in B; apply bytes_ok_app in B; tauto).
  assert (Hf1 : (length (t_in s1) < fuel)%nat) by (rewrite I1, app_length in Hf; unfold lenZ in L1; lia).
  destruct (IH _ _ _ _ _ _ HT B1 Hd' Hf1 E) as (F2 & N2 & P2 & used2 & I2 & S2).
  split; [congruence|]. split.
  - split; [lia|].
    assert (X : frame_count s s' = 1 + frame_count s1 s').
    { unfold frame_count. rewrite I1, lenZ_app, L.
      replace (MAX_PAYLOAD_LEN + 4 + lenZ (t_in s1) - lenZ (t_in s')) with (lenZ (t_in s1) - lenZ (t_in s') + 1 * (MAX_PAYLOAD_LEN + 4)) by lia.
      rewrite Z.div_add by (rewrite MAX_val; lia). lia. }
    rewrite X. replace (2 * T * (1 + (1 + frame_count s1 s'))) with (2 * T + 2 * T * (1 + frame_count s1 s')) by ring. lia.
  - split; [exact P2|]. exists (used ++ used2). split; [rewrite I1, I2; apply app_assoc|].
    destruct S2 as [S2|(k & -> & K & S2)].
    + left. intros. cbn [read_packet_to_buf]. rewrite map_app, <- app_assoc, S1, Q. apply S2.
    + right. exists k. split; [reflexivity|]. split; [now rewrite <- F1|]. intros. cbn [read_packet_to_buf]. rewrite map_app, S1, Q. apply S2.
Qed.

Lemma packet_sim : forall T seq s r q s', 0 <= T -> bytes_ok (map fst (t_in s)) ->
  read_packet_timed T seq s = ((r, q), s') ->
  t_fail s' = t_fail s /\ t_now s <= t_now s' <= t_now s + 2 * T * (1 + frame_count s s') /\ r <> Panic /\
  exists used, t_in s = used ++ t_in s' /\
  ((forall rest e out b, read_packet seq (mkStream (map fst used ++ rest) e out b) = ((r, q), mkStream rest e out b)) \/
   (exists k, r = Err (EProtocol (PIo k)) /\ (k = IoTimedOut \/ exists t, t_fail s = Some (t, k)) /\
      forall out b, read_packet seq (mkStream (map fst used) k out b) = ((r, q), mkStream [] k out b))).
Proof.
  intros T seq s r q s' HT B E. unfold read_packet_timed in E.
  destruct (loop_sim T _ seq [] s r q s' HT B eq_refl (Nat.lt_succ_diag_r _) E) as (F & N & P & used & I & S).
  split; [exact F|]. split; [exact N|]. split; [exact P|]. exists used. split; [exact I|].
  assert (X : forall st, fst (fst (read_packet_to_buf (Datatypes.S (length (t_in s))) seq [] st)) <> Panic ->
     read_packet seq st = read_packet_to_buf (Datatypes.S (length (t_in s))) seq [] st).
  { intros st H. apply read_packet_fuels; [apply read_packet_no_panic|exact H]. }
  destruct S as [S|(k & Er & K & S)].
  - left. intros. rewrite X; rewrite S; [reflexivity|exact P].
  - right. exists k. split; [exact Er|]. split; [exact K|]. intros. rewrite X; rewrite S; [reflexivity|exact P].
Qed.

(** ** In time *)

Lemma chunk_in_time : forall T body sq dst s hd bd rest, 0 <= T -> lenZ body < 2 ^ 24 ->
  t_in s = hd ++ bd ++ rest -> map fst hd = wire_uint 3 (lenZ body) ++ [sq] -> map fst bd = body ->
  Forall (fun x => snd x <= t_now s + T) (hd ++ bd) ->
  read_chunk_timed T dst s =
    (Ok (dst ++ body, sq, (lenZ body =? 0) || negb (lenZ (dst ++ body) mod MAX_PAYLOAD_LEN =? 0)),
     mkTimed (last_time (t_now s) (hd ++ bd)) rest (t_fail s)).
Proof.
  intros T body sq dst s hd bd rest HT Hl Hin Hh Hb F. apply Forall_app in F as (F1 & F2).
  assert (Lh : lenZ hd = 4) by (rewrite <- (lenZ_map _ _ fst hd), Hh, lenZ_app, wire_uint_le, lenZ_le_bytes; reflexivity).
  unfold read_chunk_timed. rewrite <- Lh at 1. rewrite (exact_in_time T s hd (bd ++ rest) Hin F1). cbn zeta. rewrite Hh.
  rewrite takeZ_app_exact by (rewrite wire_uint_le, lenZ_le_bytes; reflexivity).
  replace (nth 3 (wire_uint 3 (lenZ body) ++ [sq]) 0) with sq by reflexivity.
  unfold read_u32. rewrite wire_uint_le, le_val_bytes.
  2:{ unfold unsigned_ok. change (256 ^ Z.of_nat 3) with (2 ^ 24). pose proof (lenZ_nonneg _ body). lia. }
  assert (Lb : lenZ bd = lenZ body) by (rewrite <- Hb; symmetry; apply lenZ_map).
  destruct (lenZ body =? 0) eqn:E.
  - apply Z.eqb_eq in E. rewrite E in Lb. apply lenZ_0 in Lb. apply lenZ_0 in E. subst bd. rewrite E. cbn [orb].
    rewrite !app_nil_r. reflexivity.
  - cbn [orb]. rewrite <- Lb at 1. rewrite (exact_in_time T _ bd rest); [|reflexivity|].
    + cbn [t_now t_fail]. rewrite Hb, last_time_app. reflexivity.
    + cbn [t_now]. pose proof (last_time_ge hd (t_now s)). eapply Forall_impl; [|exact F2]. cbn beta. intros; lia.
Qed.

Lemma stamped_app : forall (used : list (Z * Z)) a b, map fst used = a ++ b ->
  exists u1 u2, used = u1 ++ u2 /\ map fst u1 = a /\ map fst u2 = b.
Proof.
  intros used a b H. exists (firstn (length a) used), (skipn (length a) used).
  split; [symmetry; apply firstn_skipn|]. rewrite <- firstn_map, <- skipn_map, H. split.
  - rewrite firstn_app, firstn_all, Nat.sub_diag. cbn. apply app_nil_r.
  - rewrite skipn_app, skipn_all, Nat.sub_diag. reflexivity.
Qed.

Lemma loop_in_time : forall seq p w q, frames seq p w q -> byte_ok seq -> forall T fuel dst s used rest, 0 <= T ->
  (length w < fuel)%nat -> lenZ dst mod MAX_PAYLOAD_LEN = 0 ->
  t_in s = used ++ rest -> map fst used = w -> Forall (fun x => snd x <= t_now s + T) used ->
  read_packet_loop T fuel seq dst s = ((Ok (dst ++ p), q), mkTimed (last_time (t_now s) used) rest (t_fail s)).
Proof.
  induction 1 as [seq body Hl | seq body more wire seq' Hl Hf IH]; intros Hs T fuel dst s used rest HT Hfu Hd Hin Hw F;
    (destruct fuel as [|fuel]; [lia|]); cbn [read_packet_loop].
  - rewrite app_assoc in Hw. apply stamped_app in Hw as (hd & bd & -> & Eh & Eb). rewrite <- app_assoc in Hin.
    rewrite (chunk_in_time T body seq dst s hd bd rest HT); try assumption; [|unfold lenZ; lia].
    rewrite Z.eqb_refl. cbn [negb]. rewrite last_short by (auto; rewrite MAX_val; unfold lenZ; lia).
    now rewrite next_seq_spec.
  - assert (Hb : lenZ body = MAX_PAYLOAD_LEN) by (rewrite MAX_val; unfold lenZ; lia).
    rewrite app_assoc in Hw. apply stamped_app in Hw as (hd & tl & -> & Eh & Et). apply stamped_app in Et as (bd & wr & -> & Eb & Ew).
    apply Forall_app in F as (F1 & F2). apply Forall_app in F2 as (F2 & F3).
    rewrite <- !app_assoc in Hin.
    rewrite (chunk_in_time T body seq dst s hd bd (wr ++ rest) HT); try assumption; [|unfold lenZ; lia| |now apply Forall_app].
    2:{ rewrite Eh, Hb, MAX_eq. reflexivity. }
    rewrite Z.eqb_refl. cbn [negb]. destruct (last_full dst body Hd Hb) as [-> Hd']. rewrite next_seq_spec by auto.
    rewrite (IH (next_seq_ok seq Hs) T fuel (dst ++ body) _ wr rest HT); auto.
    + cbn [t_now t_fail]. rewrite <- last_time_app, <- !app_assoc. reflexivity.
    + rewrite !app_length in Hfu. lia.
    + cbn [t_now]. pose proof (last_time_ge (hd ++ bd) (t_now s)). eapply Forall_impl; [|exact F3]. cbn beta. intros; lia.
Qed.

Lemma packet_in_time : forall T seq p w q s used rest, 0 <= T -> frames seq p w q -> byte_ok seq ->
  t_in s = used ++ rest -> map fst used = w -> Forall (fun x => snd x <= t_now s + T) used ->
  read_packet_timed T seq s = ((Ok p, q), mkTimed (last_time (t_now s) used) rest (t_fail s)).
Proof.
  intros T seq p w q s used rest HT Hf Hs Hin Hw F. unfold read_packet_timed.
  rewrite (loop_in_time seq p w q Hf Hs T _ [] s used rest); auto.
  rewrite Hin, app_length, <- Hw, map_length. lia.
Qed.
