(** Column definitions with names of more than 250 bytes. *)
From Coq Require Import String ZArith List Bool Lia.
From Verif Require Import Base BaseFacts Types Utf8 ParseBuf Spec_Wire ParseBuf_proofs Rows_proofs
  Conversion Spec_Conv Conversion_proofs Packets Spec_Packets Packets_proofs.
Import ListNotations.
Open Scope Z_scope.

Lemma utf8_head : forall s x r, utf8_text s (x :: r) -> x <> 252.
Proof.
  intros s x r H ->. inversion H as [|c s' w l Hc Hs E1 E2]. destruct Hc; cbn [app] in E2; injection E2; intros; lia.
Qed.

Lemma text_same : forall s a b, utf8_text s a -> utf8_text s b -> a = b.
Proof. intros s a b Ha Hb. apply utf8_text_iff in Ha, Hb. destruct Ha as (_ & <-), Hb as (_ & <-). reflexivity. Qed.

Lemma app_same : forall (a b x y : list Z), length a = length b -> a ++ x = b ++ y -> a = b /\ x = y.
Proof.
  induction a as [|u a IH]; intros [|v b] x y L E; cbn in *; try discriminate; [auto|].
  injection E as -> E. destruct (IH b x y) as (-> & ->); auto.
Qed.

Lemma lenenc_str_short : forall b, Z.of_nat (length b) <= 250 -> wire_lenenc_str b = Z.of_nat (length b) :: b.
Proof. intros b L. unfold wire_lenenc_str, wire_lenenc. now replace (Z.of_nat (length b) <=? 250) with true by lia. Qed.

Lemma lenenc_str_head : forall b x r y, wire_lenenc_str b ++ y = x :: r -> x <= 250 -> Z.of_nat (length b) <= 250.
Proof.
  intros b x r y E L. unfold wire_lenenc_str, wire_lenenc in E.
  destruct (Z.leb_spec (Z.of_nat (length b)) 250); [assumption|].
  destruct (_ <=? 65535); [|destruct (_ <=? 16777215)]; cbn [app] in E; injection E as E _; lia.
Qed.

(** A name read with a one-byte length is the one written only if it is short. *)
Lemma name_step : forall s w w' x x', name_text s w -> u8_text s w' -> w ++ x = w' ++ x' ->
  short_name_text s w /\ x = x'.
Proof.
  intros s w w' x x' (b & Hb & Ew) (b' & Hb' & L & Ew') E.
  pose proof (text_same _ _ _ Hb Hb') as K. subst b'.
  destruct (Z.leb_spec (Z.of_nat (length b)) 250) as [Hl|Hl].
  - assert (W : w = w') by (rewrite Ew, Ew'; now apply lenenc_str_short). rewrite <- W in E. apply app_inv_head in E.
    split; [|exact E]. split; [exists b; auto|]. rewrite W, Ew'. cbn [length]. lia.
  - exfalso. subst w w'. unfold wire_lenenc_str, wire_lenenc in E.
    replace (Z.of_nat (length b) <=? 250) with false in E by lia.
    replace (Z.of_nat (length b) <=? 65535) with true in E by lia.
    rewrite wire_uint_le in E.
    assert (L2 : le_bytes 2 (Z.of_nat (length b)) = [Z.of_nat (length b) mod 256; (Z.of_nat (length b) / 256) mod 256]) by reflexivity.
    rewrite L2 in E. cbn [app] in E. injection E as E1 E2.
    destruct b as [|z b]; [cbn in Hl; lia|]. cbn [app] in E2. injection E2 as E2 _.
    apply (utf8_head s z b Hb). change (Z.of_nat (length (z :: b)) mod 256 = z) in E2. rewrite <- E1 in E2. now rewrite <- E2.
Qed.

Lemma column_read : forall c pkt, bytes_ok pkt -> column_layout c pkt -> nth 4 pkt 0 <= 250 -> read_column pkt = Ok c ->
  column_layout_by short_name_text c pkt.
Proof.
  intros c pkt Hok (db & wdb & wt & wot & wn & won & charset & len & code & decimals & filler
    & D & T & OT & N & ON & H1 & H2 & H3 & H4 & H5 & H6 & E) Hs Hr.
  apply read_column_iff in Hr; [|exact Hok].
  destruct Hr as (db' & wdb' & wt' & wot' & wn' & won' & charset' & len' & code' & decimals' & filler'
    & D' & T' & OT' & N' & ON' & _ & _ & _ & _ & _ & _ & E').
  destruct D as (b & Db & ->). destruct D' as (b' & _ & _ & ->). assert (E0 := E).
  match type of E with context [won ++ ?l] => set (X := l) in E end.
  match type of E' with context [won' ++ ?l] => set (X' := l) in E' end. clearbody X X'.
  assert (Eq := E). rewrite E' in Eq. apply app_inv_head in Eq.
  assert (Lb : Z.of_nat (length b) <= 250).
  { rewrite E in Hs. change (nth 0 (wire_lenenc_str b ++ wt ++ wot ++ wn ++ won ++ X) 0 <= 250) in Hs.
    destruct (wire_lenenc_str b ++ wt ++ wot ++ wn ++ won ++ X) as [|x r] eqn:F; [discriminate|].
    apply (lenenc_str_head b x r _ F). exact Hs. }
  rewrite (lenenc_str_short b Lb) in Eq. cbn [app] in Eq. injection Eq as F0 F.
  assert (Lbb : length b' = length b) by lia.
  destruct (app_same _ _ _ _ Lbb F) as (_ & G).
  symmetry in G.
  destruct (name_step _ _ _ _ _ T T' G) as (T2 & G2).
  destruct (name_step _ _ _ _ _ OT OT' G2) as (OT2 & G3).
  destruct (name_step _ _ _ _ _ N N' G3) as (N2 & G4).
  destruct (name_step _ _ _ _ _ ON ON' G4) as (ON2 & _).
  clear E. exists db, (wire_lenenc_str b), wt, wot, wn, won, charset, len, code, decimals, filler.
  splits; auto; try lia. split; [exists b; auto|]. rewrite (lenenc_str_short b Lb). cbn [length]. lia.
Qed.
