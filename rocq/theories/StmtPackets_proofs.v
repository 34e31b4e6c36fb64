(** Lemmas about the packets of prepared statements. *)
From Coq Require Import ZArith List Bool Lia.
From Verif Require Import Base BaseFacts Types ParseBuf BufMut Spec_Wire ParseBuf_proofs
  ValueBin Spec_Stmt ValueBin_proofs NullBitmap NullBitmap_proofs Framing Framing_proofs StmtPackets.
Import ListNotations.
Open Scope Z_scope.
Local Opaque MAX_PAYLOAD_LEN.

(** Server reading of what the client writes. *)
Lemma srv_take_app : forall k x r, length x = k -> srv_take k (x ++ r) = Some (x, r).
Proof.
  intros k x r <-. unfold srv_take. rewrite app_length.
  replace (length x + length r <? length x)%nat with false
    by (symmetry; apply Nat.ltb_ge; lia).
  rewrite firstn_app, skipn_app, firstn_all, skipn_all, Nat.sub_diag. cbn.
  now rewrite app_nil_r.
Qed.

Lemma srv_uint_val : forall l, srv_uint l = le_val l.
Proof. reflexivity. Qed.

Lemma srv_uint_app : forall k n r, unsigned_ok k n ->
  srv_int k true (le_bytes k n ++ r) = Some (n, r).
Proof.
  intros. unfold srv_int. rewrite srv_take_app by apply le_bytes_length. cbn [obind].
  now rewrite srv_uint_val, le_val_bytes.
Qed.

Lemma srv_sint_app : forall k n r, (0 < k)%nat -> signed_ok k n ->
  srv_int k false (le_bytes k n ++ r) = Some (n, r).
Proof.
  intros k n r Hk H. unfold srv_int. rewrite srv_take_app by apply le_bytes_length. cbn [obind].
  f_equal. f_equal. transitivity (to_signed k (le_val (le_bytes k n))); [|now apply to_signed_bytes].
  unfold srv_sint, to_signed. rewrite srv_uint_val, le_bytes_length.
  pose proof (pow256_even k Hk) as E.
  set (m := 256 ^ Z.of_nat k) in *. set (h := m / 2) in *. set (u := le_val _).
  destruct (2 * u <? m) eqn:A; destruct (u <? h) eqn:B; try reflexivity; exfalso; lia.
Qed.

Lemma srv_string_app : forall s r, unsigned_ok 8 (lenZ s) ->
  srv_string (put_lenenc_slice s ++ r) = Some (s, r).
Proof.
  intros s r H. unfold srv_string, put_lenenc_slice. rewrite <- app_assoc.
  assert (E : srv_lenenc (put_lenenc_int (lenZ s) ++ (s ++ r)) = Some (lenZ s, s ++ r)).
  { pose proof (lenZ_nonneg _ s). unfold put_lenenc_int.
    destruct (lenZ s <? 251) eqn:E1.
    { rewrite le_bytes_1_cons by (apply unsigned_ok_1; unfold byte_ok; lia).
      cbn [srv_lenenc]. now rewrite E1. }
    destruct (lenZ s <? 65536) eqn:E2.
    { cbn [app srv_lenenc]. change (252 <? 251) with false. change (252 =? 252) with true. cbn iota.
      apply srv_uint_app. unfold unsigned_ok. change (256 ^ Z.of_nat 2) with 65536. lia. }
    destruct (lenZ s <? 16777216) eqn:E3.
    { cbn [app srv_lenenc]. change (253 <? 251) with false. change (253 =? 252) with false.
      change (253 =? 253) with true. cbn iota.
      apply srv_uint_app. unfold unsigned_ok. change (256 ^ Z.of_nat 3) with 16777216. lia. }
    cbn [app srv_lenenc]. change (254 <? 251) with false. change (254 =? 252) with false.
    change (254 =? 253) with false. change (254 =? 254) with true. cbn iota.
    now apply srv_uint_app. }
  rewrite E. cbn [obind]. apply srv_take_app. unfold lenZ. lia.
Qed.

Lemma srv_byte_app : forall n r, unsigned_ok 1 n -> srv_byte (le_bytes 1 n ++ r) = Some (n, r).
Proof. intros. now rewrite le_bytes_1_cons. Qed.

Lemma srv_ymd_app : forall y m d r, unsigned_ok 2 y -> unsigned_ok 1 m -> unsigned_ok 1 d ->
  srv_ymd (le_bytes 2 y ++ le_bytes 1 m ++ le_bytes 1 d ++ r) = Some ((y, m, d), r).
Proof.
  intros. unfold srv_ymd. rewrite srv_uint_app by auto. cbn [obind].
  rewrite srv_byte_app by auto. cbn [obind]. rewrite srv_byte_app by auto. reflexivity.
Qed.

Lemma srv_hms_app : forall y m d r, unsigned_ok 1 y -> unsigned_ok 1 m -> unsigned_ok 1 d ->
  srv_hms (le_bytes 1 y ++ le_bytes 1 m ++ le_bytes 1 d ++ r) = Some ((y, m, d), r).
Proof.
  intros. unfold srv_hms. rewrite srv_byte_app by auto. cbn [obind].
  rewrite srv_byte_app by auto. cbn [obind]. rewrite srv_byte_app by auto. reflexivity.
Qed.

Lemma srv_value_app : forall v r, value_ok v ->
  srv_value (column_type_code (value_column_type v)) (value_is_unsigned v) (value_serialize v ++ r)
  = Some (canon v, r).
Proof.
  intros v r H.
  destruct v; cbn [value_column_type column_type_code value_is_unsigned value_ok srv_value value_serialize] in *;
    try (rewrite srv_sint_app by (auto; lia); reflexivity);
    try (rewrite srv_uint_app by auto; reflexivity).
  - reflexivity.
  - rewrite srv_string_app by tauto. reflexivity.
  - rewrite <- !app_assoc. cbn [app srv_byte obind]. rewrite srv_ymd_app by tauto. reflexivity.
  - rewrite canon_time. destruct (all0 [days; _; _; _; _]) eqn:E.
    + all0_zero E. reflexivity.
    + destruct (all0 [micros]) eqn:F.
      * all0_zero F. rewrite <- !app_assoc. cbn [app srv_byte obind].
        rewrite srv_uint_app by tauto. cbn [obind]. rewrite srv_hms_app by tauto. cbn [obind].
        now destruct neg.
      * rewrite <- !app_assoc. cbn [app srv_byte obind].
        rewrite srv_uint_app by tauto. cbn [obind]. rewrite srv_hms_app by tauto. cbn [obind].
        rewrite srv_uint_app by tauto. now destruct neg.
  - cbn [canon]. destruct (all0 [year; _; _; _; _; _; _]) eqn:E.
    + all0_zero E. reflexivity.
    + destruct (all0 [hour; _; _; _]) eqn:F.
      * all0_zero F. rewrite <- !app_assoc. cbn [app srv_byte obind]. rewrite srv_ymd_app by tauto. reflexivity.
      * destruct (all0 [micro]) eqn:G.
        -- all0_zero G. rewrite <- !app_assoc. cbn [app srv_byte obind]. rewrite srv_ymd_app by tauto.
           cbn [obind]. rewrite srv_hms_app by tauto. reflexivity.
        -- rewrite <- !app_assoc. cbn [app srv_byte obind]. rewrite srv_ymd_app by tauto.
           cbn [obind]. rewrite srv_hms_app by tauto. cbn [obind]. rewrite srv_uint_app by tauto. reflexivity.
Qed.

Lemma value_is_null_dec : forall v, v = VNull \/ v <> VNull.
Proof. destruct v; auto; right; discriminate. Qed.

(** The null bitmap built by [new]. *)
Lemma mark_params_spec : forall params i bm dl n, Forall value_ok params ->
  0 <= i -> i + lenZ params <= n -> lenZ bm = bitmap_len true n ->
  exists bm', mark_params i params bm dl
      = Some (bm', dl + fold_right (fun v s => bin_len v + s) 0 params) /\
    lenZ bm' = bitmap_len true n /\
    forall j, 0 <= j < n -> col_bit true bm' j =
      if (i <=? j) && (j <? i + lenZ params)
      then match nth_error params (Z.to_nat (j - i)) with Some VNull => true | _ => col_bit true bm j end
      else col_bit true bm j.
Proof.
  induction params as [|p params IH]; intros i bm dl n Hok Hi Hn Hl.
  - exists bm. cbn [mark_params fold_right]. rewrite Z.add_0_r. splits; auto.
    intros j Hj. rewrite lenZ_nil. now replace ((i <=? j) && (j <? i + 0)) with false by lia.
  - rewrite lenZ_cons in *. pose proof (lenZ_nonneg _ params) as Hnn.
    apply Forall_cons_iff in Hok as [Hp Hok].
    cbn [mark_params fold_right].
    destruct (bin_len p =? 0) eqn:E.
    + apply Z.eqb_eq in E. rewrite E. apply bin_len_zero in E; auto. subst p.
      assert (Hr : nb_byte true i < lenZ bm) by (apply (nb_in_range _ _ n); lia || auto).
      destruct (nb_set_some true bm i true Hi Hr) as (bm1 & Es & Hl1 & Hb1). rewrite Es.
      destruct (IH (i + 1) bm1 dl n Hok ltac:(lia) ltac:(lia) ltac:(congruence)) as (bm' & -> & Hl' & Hb').
      exists bm'. splits; auto. intros j Hj. rewrite Hb' by auto.
      rewrite Hb1 by (try lia; apply (nb_in_range _ _ n); auto).
      destruct (Z.eq_dec j i) as [->|Hne].
      * replace (i + 1 <=? i) with false by lia. cbn [andb]. rewrite Z.eqb_refl.
        replace ((i <=? i) && (i <? i + (1 + lenZ params))) with true by lia.
        now replace (i - i) with 0 by lia.
      * replace (j =? i) with false by lia.
        destruct ((i + 1 <=? j) && (j <? i + 1 + lenZ params)) eqn:F.
        -- replace ((i <=? j) && (j <? i + (1 + lenZ params))) with true by lia.
           replace (Z.to_nat (j - i)) with (S (Z.to_nat (j - (i + 1)))) by lia. reflexivity.
        -- replace ((i <=? j) && (j <? i + (1 + lenZ params))) with false by lia. reflexivity.
    + destruct (IH (i + 1) bm (dl + bin_len p) n Hok ltac:(lia) ltac:(lia) Hl) as (bm' & -> & Hl' & Hb').
      exists bm'. splits; auto.
      { f_equal. f_equal. lia. }
      intros j Hj. rewrite Hb' by auto.
      destruct (Z.eq_dec j i) as [->|Hne].
      * replace (i + 1 <=? i) with false by lia. cbn [andb].
        replace ((i <=? i) && (i <? i + (1 + lenZ params))) with true by lia.
        replace (i - i) with 0 by lia. cbn. destruct p; auto. discriminate.
      * destruct ((i + 1 <=? j) && (j <? i + 1 + lenZ params)) eqn:F.
        -- replace ((i <=? j) && (j <? i + (1 + lenZ params))) with true by lia.
           replace (Z.to_nat (j - i)) with (S (Z.to_nat (j - (i + 1)))) by lia. reflexivity.
        -- replace ((i <=? j) && (j <? i + (1 + lenZ params))) with false by lia. reflexivity.
Qed.

Definition params_len (params : list value) : Z := fold_right (fun v s => bin_len v + s) 0 params.

Definition null_at (params : list value) (i : nat) : bool :=
  match nth_error params i with Some VNull => true | _ => false end.

Lemma execute_new_spec : forall id params, Forall value_ok params ->
  exists bm, execute_new id params =
      Some (mkExecute id 0 1 bm 1 params
              (11 + (lenZ params + 7) / 8 + lenZ params * 2 + params_len params >? MAX_PAYLOAD_LEN)) /\
    length bm = ((length params + 7) / 8)%nat /\
    forall i, (i < length params)%nat -> srv_bit bm i = null_at params i.
Proof.
  intros id params Hok. pose proof (lenZ_nonneg _ params) as Hn. unfold execute_new.
  destruct (mark_params_spec params 0 (nb_new true (lenZ params)) 0 (lenZ params) Hok)
    as (bm & E & Hl & Hb); try lia.
  { now apply lenZ_nb_new. }
  rewrite E. exists bm. splits.
  - rewrite Z.add_0_l. fold (params_len params). f_equal. f_equal. rewrite Hl. unfold bitmap_len. cbn [nb_offset].
    rewrite !Z.add_0_r. f_equal. lia.
  - unfold bitmap_len, lenZ in Hl. cbn [nb_offset] in Hl. apply Nat2Z.inj.
    rewrite Hl, Nat2Z.inj_div, Nat2Z.inj_add. f_equal. lia.
  - intros i Hi. specialize (Hb (Z.of_nat i) ltac:(unfold lenZ; lia)).
    replace ((0 <=? Z.of_nat i) && (Z.of_nat i <? 0 + lenZ params)) with true in Hb by (unfold lenZ; lia).
    rewrite col_bit_new in Hb by lia. rewrite Z.sub_0_r, Nat2Z.id in Hb.
    unfold null_at. rewrite <- Hb. unfold srv_bit, col_bit, nb_byte, nb_bit. cbn [nb_offset].
    rewrite !Z.add_0_r. change 8 with (Z.of_nat 8) at 1 2.
    rewrite <- (Nat2Z.inj_div i 8), <- (Nat2Z.inj_mod i 8), Nat2Z.id.
    reflexivity.
Qed.

Lemma srv_types_app : forall params r,
  srv_types (length params) (flat_map param_type_bytes params ++ r)
  = Some (map (fun v => (column_type_code (value_column_type v), value_is_unsigned v)) params, r).
Proof.
  induction params as [|p params IH]; intros r; cbn [length srv_types flat_map map]; auto.
  unfold param_type_bytes at 1. rewrite <- app_assoc. cbn [app srv_byte obind].
  destruct (value_is_unsigned p); cbn [Z.eqb Pos.eqb orb negb]; rewrite IH; reflexivity.
Qed.

Definition long_at (long : bool) (params : list value) (i : nat) : option bytes :=
  if long then match nth_error params i with Some (VBytes b) => Some b | _ => None end else None.

Lemma srv_values_app : forall aslong long bm params i r, Forall value_ok params ->
  (forall j, (j < length params)%nat -> srv_bit bm (i + j) = null_at params j) ->
  (forall j, (j < length params)%nat -> long (i + j)%nat = long_at aslong params j) ->
  srv_values bm long i
    (map (fun v => (column_type_code (value_column_type v), value_is_unsigned v)) params)
    (flat_map (param_data aslong) params ++ r)
  = Some (map canon params, r).
Proof.
  intros aslong long bm. induction params as [|p params IH]; intros i r Hok Hb Hl; cbn [map flat_map srv_values]; auto.
  apply Forall_cons_iff in Hok as [Hp Hok].
  assert (IH' : srv_values bm long (S i)
    (map (fun v => (column_type_code (value_column_type v), value_is_unsigned v)) params)
    (flat_map (param_data aslong) params ++ r) = Some (map canon params, r)).
  { apply IH; auto.
    - intros j Hj. rewrite (Nat.add_succ_comm i j). apply (Hb (S j)). cbn [length]. lia.
    - intros j Hj. rewrite (Nat.add_succ_comm i j). apply (Hl (S j)). cbn [length]. lia. }
  specialize (Hb 0%nat ltac:(cbn [length]; lia)). specialize (Hl 0%nat ltac:(cbn [length]; lia)).
  rewrite Nat.add_0_r in Hb, Hl. rewrite Hb. unfold null_at. cbn [nth_error].
  rewrite <- app_assoc.
  destruct (value_is_null_dec p) as [->|Hnn].
  - cbn [param_data app]. rewrite IH'. reflexivity.
  - replace (match p with VNull => true | _ => false end) with false by (destruct p; congruence).
    rewrite Hl. unfold long_at. cbn [nth_error].
    destruct aslong.
    + destruct p as [ | | | | | | | | | | |b| | | ];
        try (now elim Hnn);
        try (change (param_data true ?v) with (value_serialize v);
             rewrite srv_value_app by exact Hp; cbn [obind]; rewrite IH'; reflexivity).
      cbn [param_data app]. rewrite IH'. reflexivity.
    + replace (param_data false p) with (value_serialize p) by (destruct p; reflexivity).
      rewrite srv_value_app by exact Hp. cbn [obind]. rewrite IH'. reflexivity.
Qed.

Lemma srv_execute_app : forall n long id bm params aslong, params <> [] -> n = length params ->
  Forall value_ok params -> unsigned_ok 4 id ->
  length bm = ((length params + 7) / 8)%nat ->
  (forall i, (i < length params)%nat -> srv_bit bm i = null_at params i) ->
  (forall i, (i < length params)%nat -> long i = long_at aslong params i) ->
  srv_execute n long (execute_serialize (mkExecute id 0 1 bm 1 params aslong))
  = Some (id, 0, 1, map canon params).
Proof.
  intros n long id bm params aslong Hne -> Hok Hid Hl Hb Hlong.
  destruct params as [|p params]; [congruence|].
  unfold execute_serialize, srv_execute.
  cbn [ex_stmt_id ex_flags ex_iteration_count ex_bitmap ex_params_flags ex_params ex_as_long_data].
  change (le_bytes 1 COM_STMT_EXECUTE) with [23]. change (le_bytes 1 0) with [0]. change (le_bytes 1 1) with [1].
  cbn [app srv_byte obind]. change (negb (23 =? 23)) with false. cbn iota.
  rewrite srv_uint_app by auto. cbn [app srv_byte obind].
  rewrite srv_uint_app by (unfold unsigned_ok; change (256 ^ Z.of_nat 4) with 4294967296; lia).
  cbn [obind]. change (length (p :: params)) with (S (length params)) at 1. cbn iota.
  rewrite <- app_assoc. rewrite srv_take_app by exact Hl. cbn [app srv_byte obind].
  change (negb (1 =? 1)) with false. cbn iota.
  rewrite srv_types_app. cbn [obind].
  pose proof (srv_values_app aslong long bm (p :: params) 0 [] Hok) as E.
  rewrite app_nil_r in E. rewrite E; auto.
Qed.

Lemma execute_no_params : forall long id r, execute_new id [] = Some r -> unsigned_ok 4 id ->
  srv_execute 0 long (execute_serialize r) = Some (id, 0, 1, []).
Proof.
  intros long id r H Hid. injection H as <-.
  unfold execute_serialize, srv_execute. cbn [ex_stmt_id ex_flags ex_iteration_count ex_bitmap ex_params_flags ex_params ex_as_long_data].
  change (le_bytes 1 COM_STMT_EXECUTE) with [23]. change (le_bytes 1 0) with [0].
  cbn [app srv_byte obind]. change (negb (23 =? 23)) with false. cbn iota.
  rewrite srv_uint_app by auto. cbn [app srv_byte obind flat_map].
  rewrite srv_uint_app by (unfold unsigned_ok; change (256 ^ Z.of_nat 4) with 4294967296; lia).
  reflexivity.
Qed.

Lemma execute_inline : forall id params, Forall value_ok params -> unsigned_ok 4 id ->
  exists r, execute_new id params = Some r /\
    (ex_as_long_data r = false ->
     srv_execute (length params) (fun _ => None) (execute_serialize r) = Some (id, 0, 1, map canon params)).
Proof.
  intros id params Hok Hid. destruct params as [|p params].
  - eexists. split; [reflexivity|]. intros _. now apply execute_no_params.
  - destruct (execute_new_spec id (p :: params) Hok) as (bm & E & Hl & Hb).
    eexists. split; [exact E|]. cbn [ex_as_long_data]. intros ->.
    apply srv_execute_app; auto. discriminate.
Qed.

(** Long data. *)
Lemma chunks_concat : forall size fuel b, 0 < size -> (length b <= fuel)%nat ->
  concat (chunks fuel size b) = b.
Proof.
  intros size. induction fuel as [|fuel IH]; intros b Hs Hl; destruct b as [|x b]; auto.
  - cbn [length] in Hl. lia.
  - cbn [chunks concat]. rewrite IH; auto.
    + apply take_drop.
    + rewrite dropZ_skipn, skipn_length. cbn [length] in *. lia.
Qed.

Lemma chunks_nonempty : forall size fuel b, b <> [] -> (length b <= fuel)%nat ->
  chunks fuel size b <> [].
Proof.
  intros size fuel b Hb Hl. destruct b as [|x b]; [congruence|].
  destruct fuel as [|fuel]; [cbn [length] in Hl; lia|]. discriminate.
Qed.

Lemma chunks_small : forall size fuel b, 0 < size ->
  Forall (fun c => 0 < lenZ c <= size) (chunks fuel size b).
Proof.
  intros size. induction fuel as [|fuel IH]; intros b Hs; destruct b as [|x b]; cbn [chunks]; auto.
  constructor; auto. rewrite lenZ_takeZ by lia. rewrite lenZ_cons. pose proof (lenZ_nonneg _ b). lia.
Qed.

(** The pieces one parameter is sent in. *)
Definition pieces_of (v : value) : list bytes :=
  match v with
  | VBytes [] => [[]]
  | VBytes b => chunks (length b) (MAX_PAYLOAD_LEN - 6) b
  | _ => []
  end.

Lemma long_data_packets_of_eq : forall id i v, 0 <= i < 65536 ->
  long_data_packets_of id i v = map (long_data_serialize id i) (pieces_of v).
Proof.
  intros id i v Hi. unfold long_data_packets_of, pieces_of. rewrite Z.mod_small by auto.
  destruct v as [ | | | | | | | | | | |[|x b]| | | ]; reflexivity.
Qed.

Lemma srv_long_data_app : forall id i d, unsigned_ok 4 id -> 0 <= i < 65536 ->
  srv_long_data (long_data_serialize id i d) = Some (id, i, d).
Proof.
  intros id i d Hid Hi. unfold srv_long_data, long_data_serialize.
  change (le_bytes 1 COM_STMT_SEND_LONG_DATA) with [24]. cbn [app srv_byte obind].
  change (negb (24 =? 24)) with false. cbn iota.
  rewrite srv_uint_app by auto. cbn [obind]. rewrite srv_uint_app by exact Hi. reflexivity.
Qed.

Lemma srv_receive_app : forall id i ds r ps, unsigned_ok 4 id -> 0 <= i < 65536 ->
  srv_receive id r = Some ps ->
  srv_receive id (map (long_data_serialize id i) ds ++ r)
  = Some (map (fun d => (Z.to_nat i, d)) ds ++ ps).
Proof.
  intros id i ds r ps Hid Hi Hr. induction ds as [|d ds IH]; cbn [map app srv_receive]; auto.
  rewrite srv_long_data_app by auto. cbn [obind]. rewrite Z.eqb_refl. cbn [negb].
  rewrite IH. reflexivity.
Qed.

Fixpoint all_pieces (i : nat) (params : list value) : list (nat * bytes) :=
  match params with
  | [] => []
  | p :: r => map (fun d => (i, d)) (pieces_of p) ++ all_pieces (S i) r
  end.

Lemma srv_receive_all : forall id params i, unsigned_ok 4 id ->
  Z.of_nat i + lenZ params <= 65536 ->
  srv_receive id (long_data_packets id (Z.of_nat i) params) = Some (all_pieces i params).
Proof.
  intros id. induction params as [|p params IH]; intros i Hid Hn; cbn [long_data_packets all_pieces]; auto.
  rewrite lenZ_cons in Hn. pose proof (lenZ_nonneg _ params).
  rewrite long_data_packets_of_eq by lia.
  rewrite (srv_receive_app id (Z.of_nat i) _ _ (all_pieces (S i) params)); auto.
  - now rewrite Nat2Z.id.
  - lia.
  - replace (Z.of_nat i + 1) with (Z.of_nat (S i)) by lia. apply IH; auto. lia.
Qed.

Lemma filter_pieces_same : forall i (l : list bytes),
  filter (fun p => (fst p =? i)%nat) (map (fun d => (i, d)) l) = map (fun d => (i, d)) l.
Proof. induction l as [|x l IH]; cbn [map filter fst]; auto. rewrite Nat.eqb_refl. now rewrite IH. Qed.

Lemma filter_pieces_other : forall i j (l : list bytes), i <> j ->
  filter (fun p => (fst p =? j)%nat) (map (fun d => (i, d)) l) = [].
Proof.
  intros i j l H. induction l as [|x l IH]; cbn [map filter fst]; auto.
  apply Nat.eqb_neq in H. now rewrite H.
Qed.

Lemma filter_all_pieces_low : forall params i j, (j < i)%nat ->
  filter (fun p => (fst p =? j)%nat) (all_pieces i params) = [].
Proof.
  induction params as [|p params IH]; intros i j H; cbn [all_pieces]; auto.
  rewrite filter_app, filter_pieces_other, IH by lia. reflexivity.
Qed.

Lemma filter_all_pieces : forall params i j, (j < length params)%nat ->
  filter (fun p => (fst p =? i + j)%nat) (all_pieces i params)
  = map (fun d => ((i + j)%nat, d)) (match nth_error params j with Some v => pieces_of v | None => [] end).
Proof.
  induction params as [|p params IH]; intros i j H; cbn [length] in H; [lia|].
  cbn [all_pieces]. rewrite filter_app. destruct j as [|j].
  - rewrite Nat.add_0_r, filter_pieces_same, filter_all_pieces_low by lia. apply app_nil_r.
  - rewrite filter_pieces_other by lia. cbn [app nth_error].
    rewrite <- Nat.add_succ_comm. apply IH. lia.
Qed.

Lemma map_snd_pair : forall (i : nat) (l : list bytes), map snd (map (fun d => (i, d)) l) = l.
Proof. induction l; cbn; f_equal; auto. Qed.

Lemma srv_long_pieces : forall params i, (i < length params)%nat ->
  srv_long (all_pieces 0 params) i = long_at true params i.
Proof.
  intros params i H. unfold srv_long, long_at.
  pose proof (filter_all_pieces params 0 i H) as E. cbn [Nat.add] in E. unfold bytes in E. rewrite E.
  destruct (nth_error params i) as [v|]; [|reflexivity].
  destruct v as [ | | | | | | | | | | |b| | | ]; try reflexivity.
  destruct b as [|x b]; [reflexivity|].
  unfold pieces_of.
  pose proof (chunks_nonempty (MAX_PAYLOAD_LEN - 6) (length (x :: b)) (x :: b)) as Hne.
  pose proof (chunks_concat (MAX_PAYLOAD_LEN - 6) (length (x :: b)) (x :: b)) as Hc.
  destruct (chunks (length (x :: b)) (MAX_PAYLOAD_LEN - 6) (x :: b)) as [|c cs].
  - exfalso. apply Hne; auto; discriminate.
  - cbn [map]. cbn [map snd]. rewrite map_snd_pair. unfold bytes in *; rewrite Hc; [reflexivity|rewrite MAX_val; lia|auto].
Qed.

Lemma execute_long : forall id params, Forall value_ok params -> unsigned_ok 4 id ->
  lenZ params <= 65536 ->
  exists r pieces, execute_new id params = Some r /\
    srv_receive id (long_data_packets id 0 params) = Some pieces /\
    (forall i, (i < length params)%nat ->
       srv_long pieces i = match nth_error params i with Some (VBytes b) => Some b | _ => None end) /\
    (forall p, In p pieces -> (fst p < length params)%nat) /\
    (ex_as_long_data r = true ->
     srv_execute (length params) (srv_long pieces) (execute_serialize r) = Some (id, 0, 1, map canon params)).
Proof.
  intros id params Hok Hid Hn.
  assert (Hin : forall ps i p, In p (all_pieces i ps) -> (fst p < i + length ps)%nat).
  { induction ps as [|v ps IH]; intros i p Hp; cbn [all_pieces length] in *; [destruct Hp|].
    apply in_app_or in Hp as [Hp|Hp].
    - apply in_map_iff in Hp as (d & <- & _). cbn [fst]. lia.
    - apply IH in Hp. lia. }
  destruct params as [|p params].
  - do 2 eexists. splits; try reflexivity.
    + intros i Hi. cbn [length] in Hi. lia.
    + intros p [].
    + intros _. now apply execute_no_params.
  - destruct (execute_new_spec id (p :: params) Hok) as (bm & E & Hl & Hb).
    exists (mkExecute id 0 1 bm 1 (p :: params)
              (11 + (lenZ (p :: params) + 7) / 8 + lenZ (p :: params) * 2 + params_len (p :: params) >? MAX_PAYLOAD_LEN)).
    exists (all_pieces 0 (p :: params)). splits; auto.
    + apply (srv_receive_all id (p :: params) 0); auto.
    + intros i Hi. rewrite srv_long_pieces by auto. reflexivity.
    + intros q Hq. apply (Hin _ 0%nat q Hq).
    + cbn [ex_as_long_data]. intros ->. apply srv_execute_app; auto.
      * discriminate.
      * apply srv_long_pieces.
Qed.

(** The decision is exact: long data is used iff the inline packet would exceed one frame. *)
Lemma lenZ_flat_types : forall params, lenZ (flat_map param_type_bytes params) = lenZ params * 2.
Proof.
  induction params as [|p params IH]; [reflexivity|].
  cbn [flat_map]. rewrite lenZ_app, IH, lenZ_cons. unfold param_type_bytes. rewrite !lenZ_cons, lenZ_nil. lia.
Qed.

Lemma lenZ_flat_data : forall params, Forall value_ok params -> ~ In (VDate 0 0 0) params ->
  lenZ (flat_map (param_data false) params) = params_len params.
Proof.
  induction params as [|p params IH]; intros Hok Hd; [reflexivity|].
  apply Forall_cons_iff in Hok as [Hp Hok].
  cbn [flat_map params_len fold_right]. rewrite lenZ_app, IH; auto.
  - unfold params_len. f_equal.
    replace (param_data false p) with (value_serialize p) by (destruct p; reflexivity).
    apply bin_len_serialize; auto. intros ->. apply Hd. now left.
  - intro; apply Hd; now right.
Qed.

Lemma as_long_data_exact : forall id params r, Forall value_ok params -> params <> [] ->
  ~ In (VDate 0 0 0) params -> execute_new id params = Some r ->
  (ex_as_long_data r = true <->
   lenZ (execute_serialize (mkExecute (ex_stmt_id r) (ex_flags r) (ex_iteration_count r) (ex_bitmap r)
            (ex_params_flags r) (ex_params r) false)) > MAX_PAYLOAD_LEN).
Proof.
  intros id params r Hok Hne Hd E.
  destruct (execute_new_spec id params Hok) as (bm & E' & Hl & Hb).
  rewrite E in E'. injection E' as ->.
  cbn [ex_stmt_id ex_flags ex_iteration_count ex_bitmap ex_params_flags ex_params ex_as_long_data].
  unfold execute_serialize. cbn [ex_stmt_id ex_flags ex_iteration_count ex_bitmap ex_params_flags ex_params ex_as_long_data].
  rewrite !lenZ_app, !lenZ_le_bytes, lenZ_flat_types, lenZ_flat_data by auto.
  destruct params as [|p params]; [congruence|].
  rewrite lenZ_app, lenZ_le_bytes.
  assert (Hlz : lenZ bm = (lenZ (p :: params) + 7) / 8).
  { unfold lenZ. rewrite Hl, Nat2Z.inj_div, Nat2Z.inj_add. reflexivity. }
  rewrite Hlz. rewrite <- Zgt_is_gt_bool. cbn [Z.of_nat Pos.of_succ_nat Pos.succ]. lia.
Qed.
