(** Lemmas about null bitmaps. *)
From Coq Require Import ZArith List Bool Lia.
From Verif Require Import Base BaseFacts Types ParseBuf ParseBuf_proofs NullBitmap.
Import ListNotations.
Open Scope Z_scope.

(** Byte and bit position of column [i]. *)
Definition nb_byte (client : bool) (i : Z) : Z := (i + nb_offset client) / 8.
Definition nb_bit (client : bool) (i : Z) : Z := (i + nb_offset client) mod 8.

Lemma land_bit : forall b k, 0 <= k -> negb (Z.land b (Z.shiftl 1 k) =? 0) = Z.testbit b k.
Proof.
  intros b k Hk. rewrite Z.shiftl_1_l.
  destruct (Z.testbit b k) eqn:E.
  - apply negb_true_iff, Z.eqb_neq. intro H.
    apply (f_equal (fun z => Z.testbit z k)) in H.
    rewrite Z.land_spec, E, Z.pow2_bits_true, Z.bits_0 in H by auto. discriminate.
  - apply negb_false_iff, Z.eqb_eq. apply Z.bits_inj'. intros n Hn.
    rewrite Z.land_spec, Z.bits_0, Z.pow2_bits_eqb by auto.
    destruct (k =? n) eqn:F; [|apply andb_false_r].
    apply Z.eqb_eq in F. subst. now rewrite E.
Qed.

Lemma nb_pos : forall client i, 0 <= i ->
  0 <= nb_byte client i /\ 0 <= nb_bit client i < 8 /\
  i + nb_offset client = 8 * nb_byte client i + nb_bit client i.
Proof.
  intros client i H. unfold nb_byte, nb_bit, nb_offset.
  destruct client; splits; lia.
Qed.

Lemma nb_pos_inj : forall client i j, 0 <= i -> 0 <= j ->
  nb_byte client i = nb_byte client j -> nb_bit client i = nb_bit client j -> i = j.
Proof.
  intros client i j Hi Hj H1 H2. pose proof (nb_pos client i Hi). pose proof (nb_pos client j Hj). lia.
Qed.

Lemma nb_in_range : forall client i n (bm : bytes), 0 <= i < n -> lenZ bm = bitmap_len client n ->
  nb_byte client i < lenZ bm.
Proof.
  intros client i n bm H Hl. rewrite Hl. unfold bitmap_len, nb_byte.
  destruct client; cbn [nb_offset]; lia.
Qed.

(** The bit a column is stored in. *)
Definition col_bit (client : bool) (bm : bytes) (i : Z) : bool :=
  Z.testbit (nth (Z.to_nat (nb_byte client i)) bm 0) (nb_bit client i).

Lemma is_null_bit : forall client bm i, 0 <= i -> nb_byte client i < lenZ bm ->
  is_null client bm i = Some (col_bit client bm i).
Proof.
  intros client bm i Hi Hr. pose proof (nb_pos client i Hi) as (H1 & H2 & H3).
  unfold is_null, byte_and_bit. fold (nb_byte client i) (nb_bit client i).
  replace (nb_byte client i <? lenZ bm) with true by lia.
  unfold index_opt. replace (nb_byte client i <? 0) with false by lia.
  rewrite (nth_error_nth' bm 0) by (unfold lenZ in Hr; lia).
  cbn [option_map]. now rewrite land_bit by lia.
Qed.

Lemma update_nth_length : forall f l i, length (update_nth i f l) = length l.
Proof. induction l as [|x l IH]; destruct i; cbn; auto. Qed.

Lemma update_nth_nth : forall f l i j, (i < length l)%nat ->
  nth j (update_nth i f l) 0 = if (j =? i)%nat then f (nth i l 0) else nth j l 0.
Proof.
  induction l as [|x l IH]; intros i j H; cbn [length] in H; [lia|].
  destruct i as [|i]; destruct j as [|j]; cbn [update_nth nth Nat.eqb]; auto.
  apply IH. lia.
Qed.

Lemma set_bit : forall b r k, 0 <= r < 8 -> 0 <= k < 8 ->
  Z.testbit (Z.lor b (Z.shiftl 1 r)) k = (k =? r) || Z.testbit b k.
Proof.
  intros b r k Hr Hk. rewrite Z.lor_spec, Z.shiftl_1_l, Z.pow2_bits_eqb by lia.
  rewrite orb_comm. f_equal. apply Z.eqb_sym.
Qed.

Lemma clear_bit : forall b r k, 0 <= r < 8 -> 0 <= k < 8 ->
  Z.testbit (Z.land b (255 - Z.shiftl 1 r)) k = negb (k =? r) && Z.testbit b k.
Proof.
  intros b r k Hr Hk. rewrite Z.land_spec, andb_comm. f_equal.
  assert (Er : r = 0 \/ r = 1 \/ r = 2 \/ r = 3 \/ r = 4 \/ r = 5 \/ r = 6 \/ r = 7) by lia.
  assert (Ek : k = 0 \/ k = 1 \/ k = 2 \/ k = 3 \/ k = 4 \/ k = 5 \/ k = 6 \/ k = 7) by lia.
  repeat destruct Er as [Er|Er]; subst r; repeat destruct Ek as [Ek|Ek]; subst k; reflexivity.
Qed.

Lemma nb_set_some : forall client bm i b, 0 <= i -> nb_byte client i < lenZ bm ->
  exists bm', nb_set client bm i b = Some bm' /\ lenZ bm' = lenZ bm /\
    forall j, 0 <= j -> nb_byte client j < lenZ bm ->
      col_bit client bm' j = if j =? i then b else col_bit client bm j.
Proof.
  intros client bm i b Hi Hr. pose proof (nb_pos client i Hi) as (H1 & H2 & H3).
  unfold nb_set, byte_and_bit. fold (nb_byte client i) (nb_bit client i).
  replace (nb_byte client i <? lenZ bm) with true by lia.
  assert (Hn : (Z.to_nat (nb_byte client i) < length bm)%nat) by (unfold lenZ in Hr; lia).
  destruct b; (eexists; splits; [reflexivity|unfold lenZ; now rewrite update_nth_length|]);
    intros j Hj Hjr; pose proof (nb_pos client j Hj) as (J1 & J2 & J3);
    unfold col_bit; rewrite update_nth_nth by auto;
    destruct (Nat.eqb_spec (Z.to_nat (nb_byte client j)) (Z.to_nat (nb_byte client i))) as [E|E].
  - rewrite set_bit by lia. destruct (nb_bit client j =? nb_bit client i) eqn:F.
    + replace (j =? i) with true. reflexivity. symmetry. apply Z.eqb_eq.
      apply (nb_pos_inj client); lia.
    + replace (j =? i) with false.
      * cbn [orb]. now rewrite E.
      * symmetry. apply Z.eqb_neq. intros ->. lia.
  - replace (j =? i) with false. reflexivity. symmetry. apply Z.eqb_neq. intros ->. lia.
  - rewrite clear_bit by lia. destruct (nb_bit client j =? nb_bit client i) eqn:F.
    + replace (j =? i) with true. reflexivity. symmetry. apply Z.eqb_eq.
      apply (nb_pos_inj client); lia.
    + replace (j =? i) with false.
      * cbn [negb andb]. now rewrite E.
      * symmetry. apply Z.eqb_neq. intros ->. lia.
  - replace (j =? i) with false. reflexivity. symmetry. apply Z.eqb_neq. intros ->. lia.
Qed.

(** A sequence of [set] calls. *)
Fixpoint nb_sets (client : bool) (bm : bytes) (ops : list (Z * bool)) : option bytes :=
  match ops with
  | [] => Some bm
  | (i, b) :: r =>
    match nb_set client bm i b with
    | Some bm' => nb_sets client bm' r
    | None => None
    end
  end.

(** What the last call for column [i] said. *)
Definition last_set (ops : list (Z * bool)) (i : Z) (init : bool) : bool :=
  fold_left (fun acc o => if i =? fst o then snd o else acc) ops init.

Lemma nth_zeros : forall k n, nth k (repeat 0 n) 0 = 0.
Proof. intros k n. revert k. induction n; destruct k; cbn; auto. Qed.

Lemma nb_sets_spec : forall client n ops bm, Forall (fun o => 0 <= fst o < n) ops ->
  lenZ bm = bitmap_len client n ->
  exists bm', nb_sets client bm ops = Some bm' /\ lenZ bm' = bitmap_len client n /\
    forall i, 0 <= i < n ->
      is_null client bm' i = Some (last_set ops i (col_bit client bm i)).
Proof.
  intros client n. induction ops as [|[i b] ops IH]; intros bm Hops Hl.
  - exists bm. splits; auto. intros i Hi. apply is_null_bit; [lia|]. now apply (nb_in_range _ _ n).
  - apply Forall_cons_iff in Hops as [Hi Hops]. cbn [fst] in Hi.
    assert (Hr : nb_byte client i < lenZ bm) by now apply (nb_in_range _ _ n).
    destruct (nb_set_some client bm i b ltac:(lia) Hr) as (bm1 & E & Hl1 & Hb).
    cbn [nb_sets]. rewrite E.
    destruct (IH bm1 Hops ltac:(congruence)) as (bm' & E' & Hl' & Hb').
    exists bm'. splits; auto. intros j Hj. rewrite Hb' by auto.
    cbn [last_set fold_left fst snd]. f_equal. unfold last_set. f_equal.
    apply Hb; [lia|]. now apply (nb_in_range _ _ n).
Qed.

Lemma lenZ_nb_new : forall client n, 0 <= n -> lenZ (nb_new client n) = bitmap_len client n.
Proof.
  intros. unfold nb_new. apply lenZ_repeatZ. unfold bitmap_len, nb_offset. destruct client; lia.
Qed.

Lemma col_bit_new : forall client n i, 0 <= i -> col_bit client (nb_new client n) i = false.
Proof.
  intros. unfold col_bit, nb_new, repeatZ. rewrite nth_zeros. apply Z.bits_0.
Qed.

Lemma bitmap_exact : forall client n ops, 0 <= n -> Forall (fun o => 0 <= fst o < n) ops ->
  exists bm, nb_sets client (nb_new client n) ops = Some bm /\
    lenZ bm = (if client then (n + 7) / 8 else (n + 9) / 8) /\
    forall i, 0 <= i < n -> is_null client bm i = Some (last_set ops i false).
Proof.
  intros client n ops Hn Hops.
  destruct (nb_sets_spec client n ops (nb_new client n) Hops (lenZ_nb_new _ _ Hn)) as (bm & E & Hl & Hb).
  exists bm. splits; auto.
  - rewrite Hl. unfold bitmap_len, nb_offset. destruct client; f_equal; lia.
  - intros i Hi. rewrite Hb by auto. rewrite col_bit_new by lia. reflexivity.
Qed.

(** The layout: the documented position of the bit. *)
Lemma is_null_layout : forall client n bm i, 0 <= i < n -> lenZ bm = bitmap_len client n ->
  is_null client bm i =
    Some (Z.testbit (nth (Z.to_nat ((i + (if client then 0 else 2)) / 8)) bm 0)
                    ((i + (if client then 0 else 2)) mod 8)).
Proof.
  intros client n bm i Hi Hl. rewrite is_null_bit; [reflexivity|lia|]. now apply (nb_in_range _ _ n).
Qed.
