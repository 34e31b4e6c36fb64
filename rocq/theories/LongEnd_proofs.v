(** Lemmas about the packet that ends a result set, when it says more than the counts. *)
From Coq Require Import String ZArith List Bool Lia.
From Verif Require Import Base BaseFacts Types Utf8 ParseBuf Spec_Wire ParseBuf_proofs Rows_proofs
  Conversion Spec_Conv Conversion_proofs Packets Spec_Packets Packets_proofs.
Import ListNotations.
Open Scope Z_scope.
Open Scope parse_scope.

(** With eight bytes behind it the header is taken for the beginning of an integer of eight bytes. *)
Lemma ignore_long : forall a b c d e f g h r,
  ignore_lenenc_int (254 :: a :: b :: c :: d :: e :: f :: g :: h :: r) = (Ok tt, r).
Proof.
  intros a b c d e f g h r. unfold ignore_lenenc_int, checked_eat_lenenc_int.
  rewrite (pbind_ok _ _ _ _ _ (checked_eat_u8_cons 254 _)).
  change (254 <=? 250) with false. change (254 =? 252) with false. change (254 =? 253) with false.
  change (254 =? 254) with true. cbv iota.
  change (a :: b :: c :: d :: e :: f :: g :: h :: r) with ([a; b; c; d; e; f; g; h] ++ r).
  now rewrite (checked_eat_uint_val 8 [a; b; c; d; e; f; g; h] r eq_refl).
Qed.

(** What is read from a longer terminator: only the bytes from the third of the text on. *)
Lemma read_eof_long : forall caps status warnings t u c,
  read_eof (254 :: 0 :: 0 :: wire_uint 2 status ++ wire_uint 2 warnings ++ t :: u :: c) caps =
  fst ((ignore_lenenc_int ;;; status <- checked_eat_uint 2 ;; ok_tail caps 0 0 (status_truncate status)) c).
Proof.
  intros caps status warnings t u c. rewrite !wire_uint_le.
  assert (L2 : forall n, le_bytes 2 n = [n mod 256; (n / 256) mod 256]) by reflexivity.
  rewrite !L2. cbn [app]. unfold read_eof, read_eof_p.
  now rewrite (pbind_ok _ _ _ _ _ (ignore_long _ _ _ _ _ _ _ _ c)).
Qed.

Lemma ignore_takes : forall b, exists r, ignore_lenenc_int b = (Ok tt, r) /\ (b = [] \/ lenZ r <= lenZ b - 1).
Proof.
  intros [|x b]; [exists []; split; [reflexivity | now left]|].
  unfold ignore_lenenc_int, checked_eat_lenenc_int. rewrite (pbind_ok _ _ _ _ _ (checked_eat_u8_cons x b)).
  rewrite lenZ_cons. pose proof (lenZ_nonneg _ b).
  assert (E : forall k, exists r, (match checked_eat_uint k b with
    | (Ok _, b') | (Err _, b') => (Ok tt, b') | (Panic, b') => (Panic, b') end) = (@Ok protocol_error unit tt, r) /\ lenZ r <= lenZ b).
  { intros k. unfold checked_eat_uint, pbind, checked_eat. destruct (lenZ b >=? Z.of_nat k) eqn:G.
    - unfold eat. destruct (_ <? _) eqn:F; [|].
      + exfalso. rewrite Z.geb_le in G. lia.
      + eexists. split; [reflexivity|]. rewrite lenZ_dropZ by lia. lia.
    - eexists. split; [reflexivity|]. lia. }
  destruct (x <=? 250); [eexists; split; [reflexivity | right; lia]|].
  destruct (x =? 252); [destruct (E 2%nat) as (r & -> & L); eexists; split; [reflexivity | right; lia]|].
  destruct (x =? 253); [destruct (E 3%nat) as (r & -> & L); eexists; split; [reflexivity | right; lia]|].
  destruct (x =? 254); [destruct (E 8%nat) as (r & -> & L); eexists; split; [reflexivity | right; lia]|].
  eexists; split; [reflexivity | right; lia].
Qed.

Lemma long_end_err : forall caps status warnings c, (2 <= length c <= 6)%nat ->
  read_eof (254 :: 0 :: 0 :: wire_uint 2 status ++ wire_uint 2 warnings ++ c) caps = Err peof.
Proof.
  intros caps status warnings c L. destruct c as [|t [|u c]]; cbn [length] in L; try lia.
  rewrite read_eof_long. destruct (ignore_takes c) as (r & E & T). rewrite (pbind_ok _ _ _ _ _ E).
  assert (R : (length r <= 3)%nat).
  { destruct T as [-> | T]; [injection E as <-; cbn [length]; lia | unfold lenZ in T; lia]. }
  clear E T.
  destruct r as [|x [|y r]]; [reflexivity | reflexivity |].
  change (x :: y :: r) with ([x; y] ++ r).
  rewrite (pbind_ok _ _ _ _ _ (checked_eat_uint_val 2 [x; y] r eq_refl)).
  cbn [length] in R. unfold ok_tail. unfold checked_eat_uint at 1. unfold pbind at 1. unfold pbind at 1.
  rewrite checked_eat_short by (unfold lenZ; cbn; lia). reflexivity.
Qed.

Lemma long_end_text : forall caps status warnings status' warnings' c, (2 <= length c)%nat ->
  read_eof (254 :: 0 :: 0 :: wire_uint 2 status ++ wire_uint 2 warnings ++ c) caps =
  read_eof (254 :: 0 :: 0 :: wire_uint 2 status' ++ wire_uint 2 warnings' ++ c) caps.
Proof.
  intros caps status warnings status' warnings' c L. destruct c as [|t [|u c]]; cbn [length] in L; try lia.
  now rewrite !read_eof_long.
Qed.

Lemma np_optional : forall b, exists m r, optional_str b = (Ok m, r).
Proof.
  intros b. unfold optional_str. pose proof (np_checked_eat_lenenc_str b) as N.
  destruct (checked_eat_lenenc_str b) as [[[|x s]|e|] b']; try (eexists; eexists; reflexivity).
  exfalso. now apply N.
Qed.

(** One more byte changes nothing about the status and the warnings. *)
Lemma one_more : forall caps status warnings x, 0 <= status < 65536 -> 0 <= warnings < 65536 ->
  exists y, read_eof (254 :: 0 :: 0 :: wire_uint 2 status ++ wire_uint 2 warnings ++ [x]) caps = Ok y /\
    ok_status y = 256 * (status mod 256) /\ ok_warnings y = status / 256 + 256 * (warnings mod 256).
Proof.
  intros caps status warnings x Hs Hw. rewrite !wire_uint_le.
  assert (L2 : forall n, le_bytes 2 n = [n mod 256; (n / 256) mod 256]) by reflexivity.
  rewrite !L2. cbn [app].
  rewrite (Z.mod_small (status / 256)), (Z.mod_small (warnings / 256)) by lia.
  assert (S0 : 0 <= status mod 256 < 256) by lia. assert (W1 : 0 <= warnings / 256) by lia.
  set (s0 := status mod 256) in *. set (s1 := status / 256). set (w0 := warnings mod 256).
  set (w1 := warnings / 256) in *. clearbody s0 s1 w0 w1.
  unfold read_eof, read_eof_p.
  assert (I1 : ignore_lenenc_int [254; 0; 0; s0; s1; w0; w1; x] = (Ok tt, [0; 0; s0; s1; w0; w1; x])) by reflexivity.
  assert (I2 : ignore_lenenc_int [0; 0; s0; s1; w0; w1; x] = (Ok tt, [0; s0; s1; w0; w1; x])) by reflexivity.
  rewrite (pbind_ok _ _ _ _ _ I1), (pbind_ok _ _ _ _ _ I2).
  change [0; s0; s1; w0; w1; x] with ([0; s0] ++ [s1; w0; w1; x]).
  rewrite (pbind_ok _ _ _ _ _ (checked_eat_uint_val 2 [0; s0] [s1; w0; w1; x] eq_refl)).
  unfold ok_tail.
  change [s1; w0; w1; x] with ([s1; w0] ++ [w1; x]).
  rewrite (pbind_ok _ _ _ _ _ (checked_eat_uint_val 2 [s1; w0] [w1; x] eq_refl)).
  destruct (np_optional [w1; x]) as (m & r & E). rewrite (pbind_ok _ _ _ _ _ E).
  assert (T : status_truncate (le_val [0; s0]) = 256 * s0).
  { cbn [le_val]. replace (0 + 256 * (s0 + 256 * 0)) with (256 * s0) by lia.
    apply status_truncate_known. split; [lia|]. unfold flag_set.
    change 256 with (2 ^ 8). rewrite Z.mul_comm, Z.mul_pow2_bits_low by lia. discriminate. }
  rewrite T.
  replace (le_val [s1; w0]) with (s1 + 256 * w0) by (cbn [le_val]; lia).
  destruct (_ && _).
  - destruct (np_optional r) as (m' & r' & E'). rewrite (pbind_ok _ _ _ _ _ E').
    eexists. split; [reflexivity|]. split; reflexivity.
  - eexists. split; [reflexivity|]. split; reflexivity.
Qed.
