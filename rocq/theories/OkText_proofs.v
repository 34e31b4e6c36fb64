(** The text of an OK packet that runs to the end of the packet. *)
From Coq Require Import String ZArith List Bool Lia.
From Verif Require Import Base BaseFacts Types Utf8 ParseBuf Spec_Wire ParseBuf_proofs Rows_proofs
  Conversion Spec_Conv Conversion_proofs Packets Spec_Packets Packets_proofs LongEnd_proofs.
Import ListNotations.
Open Scope Z_scope.

Lemma optional_loses : forall msg w, utf8_text msg w -> fst (optional_str w) <> Ok (Some msg).
Proof.
  intros msg w H E. pose proof (utf8_text_ok _ _ H) as Hw. unfold optional_str in E.
  destruct (checked_eat_lenenc_str w) as [[[|x s]|e|] b'] eqn:R; cbn [fst] in E; try discriminate.
  injection E as <-. unfold checked_eat_lenenc_str in R. apply pbind_inv in R. destruct R as (y & b1 & R1 & R2).
  unfold checked_eat_lenenc_slice in R1. apply pbind_inv in R1. destruct R1 as (n & b2 & R1 & R3).
  destruct (ignore_takes w) as (r & I & T). unfold ignore_lenenc_int in I. rewrite R1 in I. injection I as <-.
  destruct T as [-> | T]; [discriminate|].
  apply checked_int_iff in R1; [|exact Hw]. destruct R1 as (pre & Hn & ->).
  assert (0 <= n) by (destruct Hn as [n w Hn| |]; [destruct Hn | |]; lia).
  apply checked_eat_inv in R3; [|assumption]. destruct R3 as (-> & Ly).
  apply Forall_app in Hw. destruct Hw as (_ & Hb). apply Forall_app in Hb. destruct Hb as (Hy & _).
  apply from_utf8_inv in R2; [|exact Hy]. destruct R2 as (U & _).
  apply utf8_text_iff in U. apply utf8_text_iff in H. destruct U as (_ & U). destruct H as (_ & H).
  rewrite U in H. apply (f_equal (@length Z)) in H. unfold lenZ in T. rewrite !app_length in *. lia.
Qed.

Lemma read_ok_text : forall caps track rows id status warnings msg st pkt,
  ok_layout track InfoEof rows id status warnings msg st pkt ->
  exists x, read_ok pkt caps = Ok x /\ ok_affected_rows x = rows /\ ok_last_insert_id x = id /\
    ok_status x = status_truncate status /\ ok_warnings x = warnings /\
    (ok_message x = nonempty msg <-> msg = []).
Proof.
  intros caps track rows id status warnings msg st pkt (w & (a & b & c & Ha & Hb & Hs & Hw & Hi & ->) & ->).
  unfold read_ok, read_ok_p.
  erewrite pbind_ok by (apply checked_eat_u8_cons). change (0 =? 0) with true. cbn [negb].
  erewrite pbind_ok by (apply checked_eat_lenenc_int_spec; exact Ha).
  erewrite pbind_ok by (apply checked_eat_lenenc_int_spec; exact Hb).
  erewrite pbind_ok by (apply ceat_wire; exact Hs).
  unfold ok_tail. erewrite pbind_ok by (apply ceat_wire; exact Hw).
  inversion Hi as [| | |? ? Hm E1 E2 E3 E4]; subst.
  destruct (np_optional c) as (m & r & E). erewrite pbind_ok by exact E.
  assert (K : m = nonempty msg <-> msg = []).
  { pose proof (optional_loses msg c Hm) as N. rewrite E in N. cbn [fst] in N. split.
    - destruct msg as [|x msg]; [reflexivity|]. intros ->. exfalso. now apply N.
    - intros ->. inversion Hm; subst. rewrite optional_str_nil in E. now injection E as <- _. }
  destruct (_ && _); [destruct (np_optional r) as (i & r' & E'); erewrite pbind_ok by exact E'|];
    (eexists; split; [reflexivity|]; cbn; auto).
Qed.
