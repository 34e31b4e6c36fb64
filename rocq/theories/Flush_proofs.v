(** Proofs about writing to streams that buffer. *)
From Coq Require Import ZArith List Bool Lia.
From Verif Require Import Base BaseFacts Types BufMut Framing Framing_proofs Spec_Wire Flush Spec_Flush.
Import ListNotations.
Open Scope Z_scope.
Open Scope io_scope.

Lemma write_chunks_same : forall fuel seq b s, write_chunks_on write_all fuel seq b s = write_chunks fuel seq b s.
Proof.
  induction fuel as [|fuel IH]; intros seq b s; [reflexivity|]. destruct b as [|x b]; [reflexivity|].
  cbn [write_chunks_on write_chunks]. cbv zeta.
  destruct ((write_all _ ;;; write_all _) s) as [[u|e|] s1]; [apply IH|reflexivity..].
Qed.

Lemma write_packet_same : forall seq b s, write_packet_on write_all seq b s = write_packet seq b s.
Proof. intros seq b s. unfold write_packet_on, write_packet. now rewrite write_chunks_same. Qed.

(** A stream that never fails. *)
Definition pure {S} (g : bytes -> S -> S) : bytes -> IO S unit := fun x s => (Ok tt, g x s).
Definition feed {S} (g : bytes -> S -> S) (l : list bytes) (s : S) : S := fold_left (fun s x => g x s) l s.

Lemma write_chunks_on_step : forall S (w : bytes -> IO S unit) fuel seq b s, b <> [] ->
  write_chunks_on w (Datatypes.S fuel) seq b s =
    match (w (frame_header (Z.min (lenZ b) MAX_PAYLOAD_LEN) seq) ;;; w (takeZ (Z.min (lenZ b) MAX_PAYLOAD_LEN) b)) s with
    | (Ok _, s') => write_chunks_on w fuel ((seq + 1) mod 256) (dropZ (Z.min (lenZ b) MAX_PAYLOAD_LEN) b) s'
    | (Err e, s') => ((Err e, seq), s')
    | (Panic, s') => ((Panic, seq), s')
    end.
Proof. intros S w fuel seq [|x b] s H; [now contradiction H|reflexivity]. Qed.

(** The pieces handed to a stream do not depend on it. *)
Lemma write_chunks_pieces : forall fuel seq b, (length b < fuel)%nat -> exists l q,
  (forall S (g : bytes -> S -> S) s, write_chunks_on (pure g) fuel seq b s = ((Ok tt, q), feed g l s)) /\
  (forall s, s_budget s = None ->
     write_chunks_on write_all fuel seq b s = ((Ok tt, q), mkStream (s_in s) (s_end s) (s_out s ++ concat l) None)) /\
  (b = [] -> l = []) /\
  (lenZ b mod MAX_PAYLOAD_LEN <> 0 -> exists l' x, l = l' ++ [x] /\ lenZ x = lenZ b mod MAX_PAYLOAD_LEN).
Proof.
  induction fuel as [|fuel IH]; intros seq b Hf; [lia|].
  assert (Hn : b = [] \/ b <> []) by (destruct b; [now left|now right]).
  destruct Hn as [->|Hn].
  { exists [], seq. split; [reflexivity|]. split; [|split; [reflexivity|intros H; now contradiction H]].
    intros s Hs. cbn [write_chunks_on concat]. rewrite app_nil_r. destruct s; cbn in *. now subst. }
  assert (Hb1 : 1 <= lenZ b). { destruct b as [|x b0]; [now contradiction Hn|]. rewrite lenZ_cons. pose proof (lenZ_nonneg _ b0). lia. }
  assert (St : forall S (w : bytes -> IO S unit) s, _) by (intros S w s; exact (write_chunks_on_step S w fuel seq b s Hn)).
  remember (Z.min (lenZ b) MAX_PAYLOAD_LEN) as c eqn:Ec.
  assert (Hc : 1 <= c <= lenZ b /\ c <= MAX_PAYLOAD_LEN) by (pose proof MAX_val; lia).
  assert (Hd : lenZ (dropZ c b) = lenZ b - c) by (rewrite lenZ_dropZ; lia).
  destruct (IH ((seq + 1) mod 256) (dropZ c b)) as (l & q & H1 & H2 & H0 & H3). { unfold lenZ in Hd, Hc. lia. }
  exists (frame_header c seq :: takeZ c b :: l), q. splits.
  - intros S g s. rewrite St. unfold iobind. cbn [pure]. now rewrite H1.
  - intros s Hs. rewrite St. unfold iobind. unfold write_all at 1. rewrite Hs.
    unfold write_all at 1. cbn [s_budget s_in s_end s_out]. rewrite H2 by reflexivity. cbn [s_in s_end s_out concat].
    now rewrite <- !app_assoc.
  - contradiction.
  - intros Hm. destruct (Z.lt_ge_cases (lenZ b) MAX_PAYLOAD_LEN) as [Hlt|Hge].
    + assert (Hcl : c = lenZ b) by (clear - Ec Hlt; lia).
      rewrite H0 by (apply lenZ_0; clear - Hd Hcl; lia).
      exists [frame_header c seq], (takeZ c b). split; [reflexivity|]. rewrite lenZ_takeZ_le by (clear - Hc; lia).
      rewrite Z.mod_small by (clear - Hlt Hb1; lia). exact Hcl.
    + assert (Hcm : c = MAX_PAYLOAD_LEN) by (clear - Ec Hge; lia).
      rewrite Hd, Hcm, mod_minus in H3. destruct (H3 Hm) as (l' & y & -> & Hy).
      exists (frame_header c seq :: takeZ c b :: l'), y. split; [reflexivity|exact Hy].
Qed.

Lemma write_packet_pieces : forall seq b, byte_ok seq -> exists l' x q,
  (forall S (g : bytes -> S -> S) s, write_packet_on (pure g) seq b s = ((Ok tt, q), feed g (l' ++ [x]) s)) /\
  frames seq b (concat (l' ++ [x])) q /\ lenZ x = last_piece (lenZ b).
Proof.
  intros seq b Hs. destruct (write_chunks_pieces (S (length b)) seq b (Nat.lt_succ_diag_r _)) as (l & q & H1 & H2 & _ & H3).
  set (s0 := mkStream [] IoOther [] None).
  destruct (write_follows_rules seq b s0 Hs eq_refl) as (w & q' & F & W). rewrite <- write_packet_same in W. unfold write_packet_on in W. rewrite (H2 s0 eq_refl) in W.
  unfold write_packet_on, last_piece. rewrite <- MAX_eq. destruct (Z.eqb_spec (lenZ b mod MAX_PAYLOAD_LEN) 0) as [E|E].
  - exists l, (le_bytes 4 (Z.shiftl q 24)), ((q + 1) mod 256). splits.
    + intros S g s. rewrite H1. unfold pure, feed. now rewrite fold_left_app.
    + unfold write_all in W. cbn [s_budget s_in s_end s_out app s0] in W. injection W as <- <-.
      rewrite concat_app. cbn [concat]. now rewrite app_nil_r.
    + apply lenZ_le_bytes.
  - destruct (H3 E) as (l' & x & -> & Hx). exists l', x, q. splits.
    + intros S g s. now rewrite H1.
    + cbn [s_in s_end s_out app s0] in W. injection W as <- <-. exact F.
    + exact Hx.
Qed.

(** The stream with a buffer. *)
Definition put (b : bytes) (s : buffered) : buffered := snd (bf_write b s).

Lemma put_kept : forall x s, bf_got (put x s) ++ bf_buf (put x s) = bf_got s ++ bf_buf s ++ x /\ bf_cap (put x s) = bf_cap s /\
  bf_read (put x s) = bf_read s /\ (exists got, bf_got (put x s) = bf_got s ++ got) /\
  (x <> [] -> bf_buf (put x s) = [] <-> bf_cap s <= lenZ x).
Proof.
  intros x [cap buf got rd]. unfold put, bf_write. cbn [snd bf_cap bf_buf bf_got bf_read].
  assert (N : x <> [] -> buf ++ x <> []) by (intros H K; now apply app_eq_nil in K).
  destruct (Z.gtb_spec (lenZ buf + lenZ x) cap) as [H|H]; cbn [bf_cap bf_buf bf_got bf_read];
    destruct (Z.geb_spec (lenZ x) cap) as [G|G]; cbn [bf_cap bf_buf bf_got bf_read].
  - splits; rewrite ?app_nil_r, <- ?app_assoc; try reflexivity; [now eexists|]. intros _. split; [lia|reflexivity].
  - splits; rewrite <- ?app_assoc; try reflexivity; [now eexists|]. intros Hx. cbn [app]. split; [contradiction|lia].
  - assert (buf = []) as -> by (apply lenZ_0; pose proof (lenZ_nonneg _ buf); lia).
    splits; rewrite ?app_nil_r; try reflexivity; [now eexists|]. intros _. split; [lia|reflexivity].
  - splits; try reflexivity; [exists []; now rewrite app_nil_r|]. intros Hx. split; [intros K; now apply N in K|lia].
Qed.

Lemma feed_kept : forall l s, bf_got (feed put l s) ++ bf_buf (feed put l s) = bf_got s ++ bf_buf s ++ concat l /\
  bf_cap (feed put l s) = bf_cap s /\ bf_read (feed put l s) = bf_read s /\
  exists got, bf_got (feed put l s) = bf_got s ++ got.
Proof.
  induction l as [|x l IH]; intros s; cbn [feed fold_left concat].
  - rewrite !app_nil_r. splits; try reflexivity. exists []. now rewrite app_nil_r.
  - change (fold_left _ l (put x s)) with (feed put l (put x s)). destruct (IH (put x s)) as (A & B & C & got & D).
    destruct (put_kept x s) as (A' & B' & C' & (got' & D') & _). splits.
    + rewrite A, app_assoc, A'. now rewrite <- !app_assoc.
    + congruence.
    + congruence.
    + exists (got' ++ got). rewrite D, D'. now rewrite app_assoc.
Qed.

Lemma last_piece_pos : forall n, 0 <= n -> 0 < last_piece n.
Proof.
  intros n H. unfold last_piece. destruct (Z.eqb_spec (n mod (2 ^ 24 - 1)) 0); [lia|].
  pose proof (Z.mod_pos_bound n (2 ^ 24 - 1) ltac:(lia)). lia.
Qed.

Lemma write_buffered : forall seq b s, byte_ok seq -> exists w q s',
  write_packet_on bf_write seq b s = ((Ok tt, q), s') /\ frames seq b w q /\
  bf_got s' ++ bf_buf s' = bf_got s ++ bf_buf s ++ w /\ (exists got, bf_got s' = bf_got s ++ got) /\
  bf_cap s' = bf_cap s /\ bf_read s' = bf_read s /\ (bf_buf s' = [] <-> bf_cap s <= last_piece (lenZ b)).
Proof.
  intros seq b s Hs. destruct (write_packet_pieces seq b Hs) as (l & x & q & W & F & Lx).
  exists (concat (l ++ [x])), q, (feed put (l ++ [x]) s). change bf_write with (@pure buffered put).
  destruct (feed_kept (l ++ [x]) s) as (A & B & C & D). splits; [apply W|exact F|exact A|exact D|exact B|exact C|].
  unfold feed. rewrite fold_left_app. cbn [fold_left]. change (fold_left _ l s) with (feed put l s).
  destruct (feed_kept l s) as (_ & B' & _). destruct (put_kept x (feed put l s)) as (_ & _ & _ & _ & E).
  rewrite E, B', Lx; [reflexivity|]. intros ->. pose proof (last_piece_pos (lenZ b) (lenZ_nonneg _ b)). rewrite <- Lx in H.
  now compute in H.
Qed.

Lemma read_buffered : forall peer seq p w q rest s, byte_ok seq -> frames seq p w q ->
  dropZ (bf_read s) (peer (bf_got s)) = w ++ rest ->
  bf_read_packet peer seq s = ((Ok p, q), mkBuffered (bf_cap s) (bf_buf s) (bf_got s) (bf_read s + lenZ w)).
Proof.
  intros peer seq p w q rest s Hs F E. unfold bf_read_packet. rewrite E. cbv zeta.
  rewrite (read_packet_frames seq p w q (mkStream (w ++ rest) IoTimedOut [] None) rest F Hs eq_refl). unfold with_in. cbn [s_in]. do 2 f_equal. rewrite lenZ_app. lia.
Qed.
