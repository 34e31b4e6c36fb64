(** Reading one row of a result set, or only its end. *)
From Coq Require Import String ZArith List Bool Lia.
From Verif Require Import Base BaseFacts Types Utf8 ParseBuf BufMut Spec_Wire ParseBuf_proofs Framing Framing_proofs
  Spec_Conv Packets Spec_Packets Packets_proofs Crypt Handshake ValueBin Spec_Stmt Spec_Text StmtPackets ValueText Rows Rows_proofs
  ValueText_proofs Conversion Auth Auth_proofs Conn Spec_Conn Conn_proofs Spec_One.
Import ListNotations.
Open Scope Z_scope.

Section rest.
  Variable A : Type.
  Variable decode : list column -> bytes -> res error A.

  (** A connection in the middle of a set. *)
  Definition in_set (c : conn) (rows : list bytes) (status warnings : Z) (rest : bytes) : Prop :=
    byte_ok (c_seq c) /\ s_budget (c_stream c) = None /\ c_pending c = true /\
    exists w, rest_of_set (c_seq c) rows status warnings w /\ s_in (c_stream c) = w ++ rest.

  Lemma in_set_open : forall c rows status warnings rest, in_set c rows status warnings rest -> open_set c rows rest.
  Proof.
    intros c rows status warnings rest (Hs & Hb & Hp & w & (Hr & last & q & He & Hf) & Hi).
    split; [exact Hs|]. split; [exact Hb|]. split; [exact Hp|]. exists status, warnings, last, w, q. auto.
  Qed.

  Lemma in_next : forall cols p rows c status warnings rest, Z.testbit (c_caps c) DEPRECATE_EOF_BIT = true ->
    in_set c (p :: rows) status warnings rest ->
    exists c', rs_next decode (c, mkSet cols None) = (rbind (decode cols p) (fun a => Ok (Some a)), (c', mkSet cols None)) /\
      in_set c' rows status warnings rest /\ same_side c c'.
  Proof.
    intros cols p rows c status warnings rest Hc (Hs & Hb & Hp & w & (Hr & last & q & He & Hf) & Hi).
    cbn [app] in Hf. inversion Hf as [|? ? w0 q0 ? w' ? F0 F1]; subst. rewrite <- app_assoc in Hi.
    inversion_clear Hr as [|? ? R1 R2]. rewrite (next_row A decode cols c p w0 q0 (w' ++ rest)) by assumption.
    eexists. split; [reflexivity|]. split; [|split; reflexivity].
    split; [cbn; eapply frames_seq_ok; eauto|]. split; [exact Hb|]. split; [exact Hp|].
    exists w'. split; [|reflexivity]. split; [exact R2|]. exists last, q. auto.
  Qed.

  Lemma in_end : forall cols c status warnings rest, Z.testbit (c_caps c) DEPRECATE_EOF_BIT = true ->
    in_set c [] status warnings rest ->
    exists c' x, rs_next decode (c, mkSet cols None) = (Ok None, (c', mkSet cols (Some x))) /\ closed_set c' rest /\
      same_side c c' /\ shifted_report status warnings (ok_status x) (ok_warnings x).
  Proof.
    intros cols c status warnings rest Hc (Hs & Hb & Hp & w & (Hr & last & q & He & Hf) & Hi).
    cbn [app] in Hf. inversion Hf as [|? ? w0 q0 ? w' ? F0 F1]; subst. inversion F1; subst. rewrite app_nil_r in Hi.
    destruct (end_is_last (c_caps c) status warnings _ Hc He) as (L & _). destruct He as (Ks & Kw & El).
    destruct (terminator_exact (c_caps c) status warnings Ks Kw) as (_ & E & _). cbv zeta in E.
    change (254 :: 0 :: 0 :: wire_uint 2 status ++ wire_uint 2 warnings) with ([254; 0; 0] ++ wire_uint 2 status ++ wire_uint 2 warnings) in E.
    rewrite <- El in E. clear El.
    unfold rs_next. cbn [rs_ok rs_columns]. rewrite (conn_read_frames c _ w0 q rest F0 Hs Hi).
    change (c_caps (moved c rest q)) with (c_caps c).
    rewrite L, E. eexists _, _. split; [reflexivity|]. split; [|split; [split; reflexivity | split; reflexivity]].
    split; [cbn; eapply frames_seq_ok; eauto|]. split; [exact Hb|]. split; reflexivity.
  Qed.

  Lemma readable_split : forall cols good (bad : bytes) rows, Forall (readable decode cols) (good ++ bad :: rows) ->
    readable decode cols bad.
  Proof. intros cols good bad rows H. apply Forall_app in H as (_ & H). now inversion H. Qed.

  Lemma reading_det_bad : forall cols rows (r : res error unit), r <> Ok tt -> reading decode cols rows r ->
    reading decode cols rows (Ok tt) -> False.
  Proof.
    intros cols rows r N H K. inversion K as [l F| |]; subst. destruct H as [l _|good bad l e _ D|good bad l _ D]; [congruence| |];
    apply readable_split in F as (a & F); congruence.
  Qed.

  Lemma first_bad : forall cols good (bad : bytes) rows good' bad' rows',
    good ++ bad :: rows = good' ++ bad' :: rows' -> Forall (readable decode cols) good -> Forall (readable decode cols) good' ->
    ~ readable decode cols bad -> ~ readable decode cols bad' -> bad = bad'.
  Proof.
    intros cols good. induction good as [|x good IH]; intros bad rows [|y good'] bad' rows' E G G' N N'; cbn [app] in E; injection E as E1 E2.
    - exact E1.
    - subst. inversion G'; contradiction.
    - subst. inversion G; contradiction.
    - inversion G; inversion G'; subst. eapply IH; eauto.
  Qed.

  Lemma reading_det : forall cols rows (r s : res error unit), reading decode cols rows r -> reading decode cols rows s -> r = s.
  Proof.
    assert (B : forall cols p, (exists e, decode cols p = Err e) \/ decode cols p = Panic -> ~ readable decode cols p).
    { intros cols p [(e & H)|H] (a & K); congruence. }
    assert (R : forall cols rows (r : res error unit), reading decode cols rows r -> r = Ok tt \/
      exists good bad l, rows = good ++ bad :: l /\ Forall (readable decode cols) good /\ ~ readable decode cols bad /\
        r = match decode cols bad with Ok _ => Ok tt | Err e => Err e | Panic => Panic end).
    { intros cols rows r [l F|good bad l e G D|good bad l G D]; [now left| |]; right; exists good, bad, l;
      (split; [reflexivity|]; split; [exact G|]; split; [apply B; eauto | now rewrite D]). }
    intros cols rows r s H K. destruct (R _ _ _ H) as [Er|(g & x & l & E1 & G1 & N1 & Er)]; destruct (R _ _ _ K) as [Es|(g' & x' & l' & E2 & G2 & N2 & Es)].
    - congruence.
    - subst r. inversion H as [? F| |]; subst. apply readable_split in F. contradiction.
    - subst s. inversion K as [? F| |]; subst. apply readable_split in F. contradiction.
    - rewrite E1 in E2. apply (first_bad cols) in E2; auto. now rewrite Er, Es, E2.
  Qed.

  Lemma one_of_det : forall cols rows (r s : res error (option A)), one_of decode cols rows r -> one_of decode cols rows s -> r = s.
  Proof.
    intros cols rows r s H K. destruct H as [|p l D|p l a D R|p l e D R|p l e D R|p l D R]; inversion K as [|? ? D'|? ? ? D' R'|? ? ? D' R'|? ? ? D' R'|? ? D' R']; subst;
    try congruence;
    match goal with R : reading _ _ _ ?x, R' : reading _ _ _ ?y |- _ => pose proof (reading_det _ _ _ _ R R') end; congruence.
  Qed.

  (** The loop over the remaining rows. *)
  Lemma drain_reading : forall cols rows c status warnings rest fuel, Z.testbit (c_caps c) DEPRECATE_EOF_BIT = true ->
    in_set c rows status warnings rest -> (length rows < fuel)%nat ->
    exists r c' rs', drain_loop decode fuel (c, mkSet cols None) = (r, (c', rs')) /\ reading decode cols rows r /\
      between c' rest /\ same_side c c' /\
      (r = Ok tt -> closed_set c' rest /\ exists x, rs' = mkSet cols (Some x) /\ shifted_report status warnings (ok_status x) (ok_warnings x)).
  Proof.
    intros cols. induction rows as [|p rows IH]; intros c status warnings rest fuel Hc Ho Hl;
      (destruct fuel as [|fuel]; [cbn in Hl; lia|]); cbn [drain_loop].
    - destruct (in_end cols c status warnings rest Hc Ho) as (c' & x & E & C & S & X). rewrite iob, E.
      exists (Ok tt), c', (mkSet cols (Some x)). split; [reflexivity|]. split; [apply reading_all; constructor|].
      split; [now apply closed_between|]. split; [exact S|]. intros _. split; [exact C|]. exists x. auto.
    - destruct (in_next cols p rows c status warnings rest Hc Ho) as (c' & E & O & S). rewrite iob, E.
      destruct (decode cols p) as [a|e|] eqn:Ed; cbn [rbind].
      + destruct (IH c' status warnings rest fuel) as (r & c2 & rs2 & E2 & R2 & B2 & S2 & C2).
        { unfold c_caps. destruct S as (-> & _). exact Hc. } { assumption. } { cbn in Hl. lia. }
        exists r, c2, rs2. rewrite E2. split; [reflexivity|]. assert (Rp : readable decode cols p) by (exists a; exact Ed). split.
        { destruct R2 as [rows F|good bad rows e G D|good bad rows G D].
          - apply reading_all. now constructor.
          - apply (reading_error decode cols (p :: good)); [now constructor | exact D].
          - apply (reading_panic decode cols (p :: good)); [now constructor | exact D]. }
        split; [exact B2|]. split; [destruct S, S2; split; congruence | exact C2].
      + exists (Err e), c', (mkSet cols None). split; [reflexivity|]. split; [apply (reading_error decode cols []); [constructor | exact Ed]|].
        split; [eapply open_between, in_set_open; eauto|]. split; [exact S | discriminate].
      + exists Panic, c', (mkSet cols None). split; [reflexivity|]. split; [apply (reading_panic decode cols []); [constructor | exact Ed]|].
        split; [eapply open_between, in_set_open; eauto|]. split; [exact S | discriminate].
  Qed.

  Lemma in_rounds : forall c rows status warnings rest, in_set c rows status warnings rest -> (length rows < rounds c)%nat.
  Proof. intros c rows status warnings rest H. apply in_set_open in H. pose proof (open_rounds _ decode _ _ _ H). unfold rounds. lia. Qed.

  Lemma same_caps : forall c c', same_side c c' -> c_caps c' = c_caps c.
  Proof. intros c c' (D & _). unfold c_caps. now rewrite D. Qed.

  Lemma one_answer : forall cols rows c status warnings rest, Z.testbit (c_caps c) DEPRECATE_EOF_BIT = true ->
    in_set c rows status warnings rest ->
    exists r c' rs', one decode (c, mkSet cols None) = (r, (c', rs')) /\ one_of decode cols rows r /\
      between c' rest /\ same_side c c' /\
      ((match rows with [] => True | p :: l => decode cols p <> Panic /\ reading decode cols l (Ok tt) end) ->
       closed_set c' rest /\ exists x, rs' = mkSet cols (Some x) /\ shifted_report status warnings (ok_status x) (ok_warnings x)).
  Proof.
    intros cols rows c status warnings rest Hc Ho. unfold one. destruct rows as [|p rows].
    - destruct (in_end cols c status warnings rest Hc Ho) as (c' & x & E & C & S & X). rewrite E.
      unfold rounds at 1. cbn [drain_loop]. rewrite iob. cbn [rs_next rs_ok].
      exists (Ok None), c', (mkSet cols (Some x)). split; [reflexivity|]. split; [constructor|].
      split; [now apply closed_between|]. split; [exact S|]. intros _. split; [exact C|]. exists x. auto.
    - destruct (in_next cols p rows c status warnings rest Hc Ho) as (c' & E & O & S). rewrite E.
      destruct (decode cols p) as [a|e|] eqn:Ed; cbn [rbind].
      3:{ exists Panic, c', (mkSet cols None). split; [reflexivity|]. split; [now apply one_broken|].
          split; [eapply open_between, in_set_open; eauto|]. split; [exact S|]. intros (N & _). congruence. }
      all: destruct (drain_reading cols rows c' status warnings rest (rounds c')) as (r & c2 & rs2 & E2 & R2 & B2 & S2 & C2);
        [now rewrite (same_caps _ _ S) | exact O | eapply in_rounds; exact O |]; rewrite E2;
        assert (S3 : same_side c c2) by (destruct S, S2; split; congruence).
      + destruct r as [[]|e|].
        * exists (Ok (Some a)), c2, rs2. split; [reflexivity|]. split; [now apply one_row|]. split; [exact B2|].
          split; [exact S3|]. intros _. now apply C2.
        * exists (Err e), c2, rs2. split; [reflexivity|]. split; [apply one_later_error; [congruence | exact R2]|]. split; [exact B2|].
          split; [exact S3|]. intros (_ & R3). exfalso. refine (reading_det_bad _ _ _ _ R2 R3); discriminate.
        * exists Panic, c2, rs2. split; [reflexivity|]. split; [apply one_later_panic; [congruence | exact R2]|]. split; [exact B2|].
          split; [exact S3|]. intros (_ & R3). exfalso. refine (reading_det_bad _ _ _ _ R2 R3); discriminate.
      + destruct r as [[]|e2|].
        * exists (Err e), c2, rs2. split; [reflexivity|]. split; [now apply one_error|]. split; [exact B2|].
          split; [exact S3|]. intros _. now apply C2.
        * exists (Err e2), c2, rs2. split; [reflexivity|]. split; [apply one_later_error; [congruence | exact R2]|]. split; [exact B2|].
          split; [exact S3|]. intros (_ & R3). exfalso. refine (reading_det_bad _ _ _ _ R2 R3); discriminate.
        * exists Panic, c2, rs2. split; [reflexivity|]. split; [apply one_later_panic; [congruence | exact R2]|]. split; [exact B2|].
          split; [exact S3|]. intros (_ & R3). exfalso. refine (reading_det_bad _ _ _ _ R2 R3); discriminate.
  Qed.

  Lemma finish_answer : forall cols rows c status warnings rest, Z.testbit (c_caps c) DEPRECATE_EOF_BIT = true ->
    in_set c rows status warnings rest ->
    exists r c' rs', reading decode cols rows r /\ between c' rest /\ same_side c c' /\
      match r with
      | Ok _ => exists x, shifted_report status warnings (ok_status x) (ok_warnings x) /\ closed_set c' rest /\ rs' = mkSet cols (Some x) /\
          finish decode (c, mkSet cols None) = (Ok x, (c', rs')) /\
          finish_into_inner decode (c, mkSet cols None) = (Ok (x, cols), (c', rs'))
      | Err e => finish decode (c, mkSet cols None) = (Err e, (c', rs')) /\
          finish_into_inner decode (c, mkSet cols None) = (Err e, (c', rs'))
      | Panic => finish decode (c, mkSet cols None) = (Panic, (c', rs')) /\
          finish_into_inner decode (c, mkSet cols None) = (Panic, (c', rs'))
      end.
  Proof.
    intros cols rows c status warnings rest Hc Ho.
    destruct (drain_reading cols rows c status warnings rest (rounds c) Hc Ho (in_rounds _ _ _ _ _ Ho)) as (r & c2 & rs2 & E2 & R2 & B2 & S2 & C2).
    exists r, c2, rs2. split; [exact R2|]. split; [exact B2|]. split; [exact S2|].
    unfold finish, finish_into_inner. cbn [rs_ok]. rewrite E2. destruct r as [[]|e|]; [|split; reflexivity|split; reflexivity].
    destruct (C2 eq_refl) as (C & x & -> & X). exists x. cbn [rs_ok rs_columns]. splits; auto.
  Qed.
End rest.
