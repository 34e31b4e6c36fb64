(** Proofs about rows as text and in binary form (C122). *)
From Coq Require Import ZArith List Bool Lia.
From Verif Require Import Base BaseFacts Types Spec_Wire Spec_Stmt Spec_Text ValueText_proofs Spec_Stored.
Import ListNotations.
Open Scope Z_scope.

Lemma scaled : forall scale u, fraction_ok scale u -> 0 <= u < 1000000 /\ (scale = O -> u = 0) /\
  forall g, fixed_text scale (u / 10 ^ (6 - Z.of_nat scale)) g -> u = dec_val g * 10 ^ (6 - Z.of_nat scale).
Proof.
  intros scale u (Hs & k & Hk & ->).
  assert (P : 0 < 10 ^ (6 - Z.of_nat scale)) by (apply Z.pow_pos_nonneg; lia).
  assert (E : 10 ^ Z.of_nat scale * 10 ^ (6 - Z.of_nat scale) = 1000000) by (rewrite <- Z.pow_add_r by lia; replace (Z.of_nat scale + (6 - Z.of_nat scale)) with 6 by lia; reflexivity).
  splits.
  - lia.
  - rewrite <- E. apply Z.mul_lt_mono_pos_r; lia.
  - intros ->. change (10 ^ Z.of_nat 0) with 1 in Hk. lia.
  - intros g (_ & _ & D). rewrite Z.div_mul in D by lia. now rewrite D.
Qed.

Lemma clock_spec : forall hours scale h m s u l, fraction_ok scale u -> clock_text hours scale h m s u l ->
  (forall a, hours h a -> (2 <= length a)%nat /\ nat_text h a) -> spec_clock h m s u l.
Proof.
  intros hours scale h m s u l Hf (a & b & c & f & -> & Ha & Hb & Hc & F) Hh. destruct (Hh a Ha) as (L & N).
  destruct (scaled _ _ Hf) as (_ & Z0 & G). exists a, b, c, f. splits; auto. destruct scale as [|n].
  - left. auto.
  - destruct F as (g & -> & Hg). right. exists g. pose proof Hg as (Lg & Dg & _). destruct Hf as (Hs & _).
    splits; auto; try lia. rewrite Lg. now apply G.
Qed.

Section Cells.
  Variables show32 show64 : Z -> list Z -> Prop.

  Lemma wt_signed : forall c n l, writes_text show32 show64 c (DNumber n) l -> signed_text n l /\ (0 <= n -> nat_text n l).
  Proof.
    intros c n l H. inversion H; subst; (split; [|intros; try lia; assumption]).
    - now left.
    - right. eauto.
  Qed.

  Ltac number :=
    split; [constructor; auto | split; [discriminate | split]];
    [intros l Hl; apply wt_signed in Hl; destruct Hl as (L1 & L2); constructor; auto; unfold u8, u16, u32, u64; try lia; apply L2; lia
    | intros w Hw; inversion Hw as [? ? k Hk| | | | | | | | | | | |]; subst; injection Hk as <-; constructor; auto; unfold u8, u16, u32, u64; lia].

  Lemma cell : forall c d, holds c d -> d <> DNull -> exists v, stands_for c d v /\ v <> VNull /\
    (forall l, writes_text show32 show64 c d l -> text_enc show32 show64 (sc_type c) (sc_unsigned c) v l) /\
    (forall w, writes_binary c d w -> bin_enc (sc_type c) (sc_unsigned c) v w).
  Proof.
    intros c d H Hn. inversion H as [c'|t s k n Hk Hr|t s k n Hk Hr|b s x Hx|b s x Hx|t b s x Ht|b s y m dd Hy Hm Hd
      |t b sc y mo dd h mi s u Ht Hy Hmo Hd Hh Hmi Hs Hu|b sc neg h m s u Hh Hm Hs Hu Hz]; subst; cbn [sc_type sc_unsigned].
    - contradiction.
    - destruct t; try discriminate Hk; injection Hk as <-;
        [exists (VTiny n) | exists (VShort n) | exists (VInt n) | exists (VLong n) | exists (VInt n) | exists (VShort n)]; number.
    - destruct t; try discriminate Hk; injection Hk as <-;
        [exists (VUTiny n) | exists (VUShort n) | exists (VUInt n) | exists (VULong n) | exists (VUInt n) | exists (VUShort n)]; number.
    - exists (VFloat x). splits; [constructor | discriminate | |]; intros l Hl; inversion Hl; subst; constructor; auto.
    - exists (VDouble x). splits; [constructor | discriminate | |]; intros l Hl; inversion Hl; subst; constructor; auto.
    - exists (VBytes x). splits; [constructor | discriminate | |]; intros l Hl; inversion Hl; subst; constructor; auto.
    - exists (VDate y m dd). splits; [constructor | discriminate | |]; intros l Hl; inversion Hl; subst; constructor; auto; unfold u8, u16; lia.
    - exists (VDatetime y mo dd h mi s u). pose proof (scaled _ _ Hu) as (U & _). splits; [constructor | discriminate | |].
      + intros l Hl. inversion Hl as [| | | | | |? ? ? ? ? ? ? ? a b' Ha Hb|]; subst. constructor; auto. cbn [sc_scale] in Hb.
        exists a, b'. splits; auto; try lia.
        * eapply clock_spec; [exact Hu | exact Hb|]. intros a' (A & B & C). split; [lia|]. unfold nat_text. splits; auto. intros ->. discriminate A.
        * destruct Hb as (a' & b2 & c2 & f & -> & Ha' & _). exists (b2 ++ [58] ++ c2 ++ f), a'. split; [reflexivity | exact Ha'].
      + intros w Hw. inversion Hw; subst; constructor; auto; unfold u8, u16, u32; lia.
    - pose proof (scaled _ _ Hu) as (U & _). exists (VTime neg (h / 24) (h mod 24) m s u).
      pose proof (Z.div_mod h 24 ltac:(lia)) as E. splits; [| discriminate | |].
      + replace (DTime neg h m s u) with (DTime neg (h / 24 * 24 + h mod 24) m s u) by (f_equal; lia). constructor. lia.
      + intros l Hl. inversion Hl as [| | | | | | |? ? ? ? ? ? a Ha]; subst. cbn [sc_scale] in Ha.
        assert (S : spec_clock (h / 24 * 24 + h mod 24) m s u a).
        { replace (h / 24 * 24 + h mod 24) with h by lia. eapply clock_spec; [exact Hu | exact Ha | auto]. }
        destruct neg; cbn [app]; constructor; constructor; auto; try lia.
      + intros w Hw. inversion Hw; subst.
        * destruct neg; [exfalso; apply Hz; auto|]. constructor.
        * constructor; auto; unfold u8, u32; lia.
        * constructor; auto; unfold u8, u32; lia.
  Qed.
End Cells.

Lemma text_weaken : forall (p32 p64 q32 q64 : Z -> list Z -> Prop) scs row pkt,
  (forall x l, In (DFloat x) row -> p32 x l -> q32 x l) -> (forall x l, In (DDouble x) row -> p64 x l -> q64 x l) ->
  row_as_text p32 p64 scs row pkt -> row_as_text q32 q64 scs row pkt.
Proof.
  intros p32 p64 q32 q64 scs row pkt H3 H6 H.
  induction H as [|c cs ds w Hr IH|c cs d ds l pre w Hw Hl Hr IH]; [constructor | constructor; apply IH; intros; [apply H3 | apply H6]; cbn [In]; auto|].
  assert (IH' : row_as_text q32 q64 cs ds w) by (apply IH; intros; [apply H3 | apply H6]; cbn [In]; auto).
  constructor; auto. inversion Hw; subst; constructor; auto; [apply H3 | apply H6]; cbn [In]; auto.
Qed.

Lemma stands_one : forall c d v v', stands_for c d v -> stands_for c d v' -> v' = v.
Proof.
  intros c d v v' H H'.
  inversion H; subst; inversion H'; subst; try reflexivity;
    repeat match goal with K : _ = _ \/ _ = _ |- _ => destruct K; subst end; try discriminate; try congruence.
  f_equal; lia.
Qed.

Lemma rows_values : forall scs row, Forall2 holds scs row -> exists vs,
  Forall2 (fun p v => stands_for (fst p) (snd p) v) (combine scs row) vs /\
  length vs = length row /\ (forall i, nth_error vs i = Some VNull <-> nth_error row i = Some DNull) /\
  (forall show32 show64 pkt, row_as_text show32 show64 scs row pkt -> text_row show32 show64 (map (fun c => (sc_type c, sc_unsigned c)) scs) vs pkt) /\
  (forall w, cells_binary scs row w -> bin_values (map (fun c => (sc_type c, sc_unsigned c)) scs) vs w).
Proof.
  intros scs row H. induction H as [|c d scs row Hc Hr IH].
  - exists []. splits; [constructor | reflexivity | intros [|i]; split; discriminate | |]; intros; [inversion H | inversion H]; subst; constructor.
  - destruct IH as (vs & S & L & N & T & B).
    assert (D : d = DNull \/ d <> DNull) by (destruct d; [now left | right; discriminate ..]).
    destruct D as [-> | D].
    + exists (VNull :: vs). splits.
      * cbn [combine]. constructor; [constructor | exact S].
      * cbn [length]. now rewrite L.
      * intros [|i]; [split; reflexivity | apply N].
      * intros s3 s6 pkt Hp. inversion Hp as [|? ? ? w Hw|? ? ? ? l pre w Hw]; subst; cbn [map].
        -- apply tr_null. now apply T.
        -- inversion Hw.
      * intros pkt Hp. inversion Hp as [|? ? ? w Hw|? ? ? ? l w Hw]; subst; cbn [map].
        -- apply bv_null. now apply B.
        -- inversion Hw.
    + destruct (cell (fun _ _ => False) (fun _ _ => False) c d Hc D) as (v & Sv & Nv & _ & Bv).
      exists (v :: vs). splits.
      * cbn [combine]. constructor; [exact Sv | exact S].
      * cbn [length]. now rewrite L.
      * intros [|i]; [cbn [nth_error]; split; congruence | apply N].
      * intros s3 s6 pkt Hp. inversion Hp as [|? ? ? w Hw|? ? ? ? l pre w Hw Hl Ht]; subst; [contradiction|]; cbn [map].
        apply tr_val; [|exact Hl | now apply T].
        destruct (cell s3 s6 c d Hc D) as (v' & Sv' & _ & Tv & _).
        assert (v' = v) as ->; [|now apply Tv].
        eapply stands_one; eassumption.
      * intros pkt Hp. inversion Hp as [|? ? ? w Hw|? ? ? ? w1 w2 Hw Hl]; subst; [contradiction|]; cbn [map].
        apply bv_val; auto.
Qed.

Lemma stands_distinct : forall c d d' v, stands_for c d v -> stands_for c d' v -> d = d'.
Proof. intros c d d' v H H'. inversion H; subst; inversion H'; subst; reflexivity. Qed.
